(** C115: copies of a PointerFIFO. *)
From Verif Require Import Base BaseFacts ListModel ListSpec ListProofs FifoCopyModel.
Local Open Scope Z_scope.

(** ** What is claimed *)
(** What the user may know of a variable: the elements and whether anything was ever put there, or that it has been
    copied from and must not be used. *)
Inductive know := Holds (d : list Z) (put : bool) | Stale.
Definition knows := nat -> option know.
Definition is_put (f : fop) : bool := match f with FPut _ | FPushFront _ => true | _ => false end.
Definition set_know (s : knows) (x : nat) (k : option know) : knows := fun y => if (y =? x)%nat then k else s y.
(** A copy has what the original had; the original must no longer be used, unless nothing was ever put there. *)
Definition learn (s : knows) (o : op) : knows * Z :=
  match o with
  | New x => (set_know s x (Some (Holds [] false)), 0)
  | Copy y x => (if (y =? x)%nat then s else
                 set_know (match s x with Some (Holds d true) => set_know s x (Some Stale) | _ => s end) y (s x), 0)
  | Use x f => match s x with
               | Some (Holds d b) => (set_know s x (Some (Holds (fst (dstep d f)) (b || is_put f))), snd (dstep d f))
               | _ => (s, 0)
               end
  | Drop x => (set_know s x None, 0)
  end.
Fixpoint learned (s : knows) (p : list op) : list Z :=
  match p with [] => [] | o :: p => snd (learn s o) :: learned (fst (learn s o)) p end.
(** Only FIFOs that exist are copied, and only those that are not stale are used. *)
Fixpoint legal (s : knows) (p : list op) : Prop :=
  match p with
  | [] => True
  | o :: p => match o with
              | Copy _ x => s x <> None
              | Use x _ => exists d b, s x = Some (Holds d b)
              | _ => True
              end /\ legal (fst (learn s o)) p
  end.
Definition knows0 : knows := fun _ => None.

(** ** One FIFO among others *)
Record GInv (f : fifo) (d : list Z) (l fr : list nat) : Prop := {
  G_chain : chain (nxt (f_cells f)) (f_head f) l;
  G_free : chain (nxt (f_cells f)) (f_free f) fr;
  G_nodup : NoDup (l ++ fr);
  G_lt : forall q, In q (l ++ fr) -> (q < length (f_cells f))%nat;
  G_tail : f_tail f = last_opt l;
  G_data : map (dat (f_cells f)) l = map Some d;
  G_size : f_size f = Z.of_nat (length d) mod 2 ^ 32
}.
(** Nodes outside [own] are as before. *)
Definition frame (m m' : list lnode) (own : list nat) : Prop :=
  (length m <= length m')%nat /\ forall q, (q < length m)%nat -> ~ In q own -> nxt m' q = nxt m q /\ dat m' q = dat m q.
Lemma frame_refl m own : frame m m own.
Proof. split; [lia|]. auto. Qed.
Lemma app_old (m : list lnode) e q : (q < length m)%nat -> nxt (m ++ [e]) q = nxt m q /\ dat (m ++ [e]) q = dat m q.
Proof. intros H. unfold nxt, dat. rewrite nth_error_app1 by exact H. auto. Qed.
Lemma galloc f d l fr : GInv f d l fr ->
  exists f1 p fr1, allocate f = Ok (f1, p) /\ f_head f1 = f_head f /\ f_tail f1 = f_tail f /\ f_size f1 = f_size f /\
    chain (nxt (f_cells f1)) (f_head f) l /\ chain (nxt (f_cells f1)) (f_free f1) fr1 /\ NoDup (p :: l ++ fr1) /\
    (forall q, In q (p :: l ++ fr1) -> (q < length (f_cells f1))%nat /\ (In q (l ++ fr) \/ (length (f_cells f) <= q)%nat)) /\
    map (dat (f_cells f1)) l = map Some d /\ frame (f_cells f) (f_cells f1) (l ++ fr).
Proof.
  intros I. unfold allocate. destruct fr as [|p fr].
  - rewrite (chain_head _ _ _ (G_free _ _ _ _ I)). cbn [hd_error]. eexists _, _, []. split; [reflexivity|]. cbn [f_head f_tail f_size f_cells f_free]. do 3 (split; [reflexivity|]).
    assert (O : forall x, In x l -> (x < length (f_cells f))%nat) by (intros x H; apply (G_lt _ _ _ _ I); rewrite app_nil_r; exact H).
    split. { eapply chain_ext; [|apply (G_chain _ _ _ _ I)]. intros x H. apply (app_old _ _ _ (O x H)). }
    split; [reflexivity|]. split. { constructor; [rewrite app_nil_r; intros H; specialize (O _ H); lia|apply (G_nodup _ _ _ _ I)]. }
    split. { intros q [<-|H]; rewrite app_length; cbn [length]; [lia|]. pose proof (G_lt _ _ _ _ I q H). split; [lia|left; exact H]. }
    split. { rewrite <- (G_data _ _ _ _ I). apply map_ext_in. intros x H. apply (app_old _ _ _ (O x H)). }
    split; [rewrite app_length; lia|]. intros q H _. apply app_old. exact H.
  - pose proof (G_free _ _ _ _ I) as C. destruct C as (-> & n & N & C). assert (Hp : (p < length (f_cells f))%nat) by (apply (G_lt _ _ _ _ I); apply in_or_app; right; left; reflexivity).
    unfold node_next. destruct (rd_some _ _ _ Hp) as (nd & R & E). rewrite R. cbn [bind]. unfold nxt in N. rewrite E in N. injection N as <-.
    eexists _, p, fr. split; [reflexivity|]. cbn [f_head f_tail f_size f_cells f_free]. do 3 (split; [reflexivity|]). split; [apply (G_chain _ _ _ _ I)|]. split; [exact C|].
    pose proof (G_nodup _ _ _ _ I) as ND. split. { constructor; [exact (NoDup_remove_2 _ _ _ ND)|exact (NoDup_remove_1 _ _ _ ND)]. }
    split. { intros q H. assert (In q (l ++ p :: fr)) as J by (destruct H as [<-|H]; [apply in_or_app; right; left; reflexivity|apply in_app_or in H; apply in_or_app; destruct H; [left; assumption|right; right; assumption]]). split; [exact (G_lt _ _ _ _ I q J)|left; exact J]. }
    split; [apply (G_data _ _ _ _ I)|apply frame_refl].
Qed.
Lemma gpush_front f d l fr v : GInv f d l fr ->
  exists f' l' fr', fifo_push_front f v = Ok f' /\ GInv f' (v :: d) l' fr' /\ frame (f_cells f) (f_cells f') (l ++ fr) /\
    (forall q, In q (l' ++ fr') -> In q (l ++ fr) \/ (length (f_cells f) <= q)%nat).
Proof.
  intros I. destruct (galloc _ _ _ _ I) as (f1 & p & fr1 & E & Eh & Et & Es & C & Cf & ND & LT & D & Fr). unfold fifo_push_front. rewrite E. cbn [bind].
  pose proof ND as ND0. apply NoDup_cons_iff in ND. destruct ND as [Np ND]. destruct (LT p (or_introl eq_refl)) as [Hp Op].
  destruct (set_data_ok _ p v Hp) as (m1 & E1 & L1 & D1 & D1' & N1). rewrite E1. cbn [bind].
  destruct (set_next_ok m1 p (f_head f1)) as (m2 & E2 & L2 & N2 & N2' & D2); [lia|]. rewrite E2. cbn [bind].
  exists {| f_cells := m2; f_head := Some p; f_tail := match f_tail f1 with None => Some p | t => t end; f_free := f_free f1; f_size := u32 (f_size f1 + 1) |}, (p :: l), fr1.
  split; [destruct (f_tail f1); reflexivity|]. split; [|split].
  - constructor; cbn [f_cells f_head f_tail f_free f_size].
    + split; [reflexivity|]. exists (f_head f1). split; [assumption|]. rewrite Eh. eapply chain_ext; [|exact C]. intros x H. rewrite N2', N1; [reflexivity|]. intros ->. apply Np. apply in_or_app. left. assumption.
    + eapply chain_ext; [|exact Cf]. intros x H. rewrite N2', N1; [reflexivity|]. intros ->. apply Np. apply in_or_app. right. assumption.
    + exact ND0.
    + intros q Q. rewrite L2, L1. apply LT. exact Q.
    + rewrite last_opt_cons, Et, (G_tail _ _ _ _ I). reflexivity.
    + cbn [map]. rewrite D2, D1. f_equal. rewrite <- D. apply map_ext_in. intros x H. rewrite D2. apply D1'. intros ->. apply Np. apply in_or_app. left. assumption.
    + rewrite Es, (G_size _ _ _ _ I). apply mod_step.
  - cbn [f_cells]. destruct Fr as [F1 F2]. split; [lia|]. intros q Q NI. assert (q <> p) as QP by (intros ->; destruct Op; [contradiction|lia]). rewrite N2', N1, D2, D1' by exact QP. apply F2; assumption.
  - intros q Q. apply LT. exact Q.
Qed.
Lemma gput f d l fr v : GInv f d l fr ->
  exists f' l' fr', fifo_put f v = Ok f' /\ GInv f' (d ++ [v]) l' fr' /\ frame (f_cells f) (f_cells f') (l ++ fr) /\
    (forall q, In q (l' ++ fr') -> In q (l ++ fr) \/ (length (f_cells f) <= q)%nat).
Proof.
  intros I. destruct (galloc _ _ _ _ I) as (f1 & p & fr1 & E & Eh & Et & Es & C & Cf & ND & LT & D & Fr). unfold fifo_put. rewrite E. cbn [bind].
  pose proof ND as ND0. apply NoDup_cons_iff in ND. destruct ND as [Np ND]. destruct (LT p (or_introl eq_refl)) as [Hp Op].
  destruct (set_data_ok _ p v Hp) as (m1 & E1 & L1 & D1 & D1' & N1). rewrite E1. cbn [bind].
  destruct (set_next_ok m1 p None) as (m2 & E2 & L2 & N2 & N2' & D2); [lia|]. rewrite E2. cbn [bind].
  rewrite Et, (G_tail _ _ _ _ I).
  assert (X : exists m3, (match last_opt l with Some t => set_next m2 t (Some p) | None => Ok m2 end) = Ok m3 /\ length m3 = length m2 /\
     chain (nxt m3) (match f_head f1 with None => Some p | h => h end) (l ++ [p]) /\ (forall q, dat m3 q = dat m2 q) /\ (forall q, ~ In q l -> nxt m3 q = nxt m2 q)).
  { destruct (last_opt l) as [t|] eqn:Lt.
    - destruct (last_opt_split _ _ _ Lt) as (l' & ->).
      assert (Ht : (t < length m2)%nat). { rewrite L2, L1. apply LT. right. apply in_or_app. left. apply in_or_app. right. left. reflexivity. }
      assert (Npt : p <> t). { intros ->. apply Np. apply in_or_app. left. apply in_or_app. right. left. reflexivity. }
      destruct (set_next_ok m2 t (Some p) Ht) as (m3 & E3 & L3 & N3 & N3' & D3). exists m3. split; [assumption|]. split; [assumption|].
      apply nodup_app_l in ND. rewrite Eh.
      assert (Hh : f_head f <> None). { rewrite (chain_head _ _ _ C). destruct l'; discriminate. }
      split; [|split; [assumption|]].
      + rewrite <- app_assoc. cbn [app]. replace (match f_head f with None => Some p | Some n => Some n end) with (f_head f) by (destruct (f_head f); congruence).
        apply (chain_snoc (nxt (f_cells f1))); try assumption.
        * intros x H. pose proof (NoDup_remove_2 l' [] t ND) as Nt. rewrite app_nil_r in Nt. rewrite N3', N2', N1; [reflexivity| |].
          -- intros ->. apply Np. apply in_or_app. left. apply in_or_app. left. assumption.
          -- intros ->. contradiction.
        * rewrite N3' by assumption. assumption.
      + intros q Q. apply N3'. intros ->. apply Q. apply in_or_app. right. left. reflexivity.
    - apply last_opt_none in Lt. subst l. exists m2. split; [reflexivity|]. split; [reflexivity|]. split; [|split; reflexivity]. rewrite Eh, (chain_head _ _ _ C). cbn. split; [reflexivity|]. exists None. auto. }
  destruct X as (m3 & E3 & L3 & C3 & D3 & N3). rewrite E3. cbn [bind]. eexists _, (l ++ [p]), fr1. split; [reflexivity|].
  assert (forall q, In q ((l ++ [p]) ++ fr1) -> In q (p :: l ++ fr1)) as IN by (intros q Q; rewrite <- app_assoc in Q; apply in_app_or in Q; destruct Q as [Q|[Q|Q]]; [right; apply in_or_app; left; exact Q|left; exact Q|right; apply in_or_app; right; exact Q]).
  split; [|split].
  - constructor; cbn [f_cells f_head f_tail f_free f_size].
    + assumption.
    + eapply chain_ext; [|exact Cf]. intros x H. rewrite N3, N2', N1; [reflexivity| |].
      * intros ->. apply Np. apply in_or_app. right. assumption.
      * intros Y. clear - ND H Y. induction l as [|a l IH]; [contradiction|]. cbn [app] in ND. inversion ND; subst. destruct Y as [->|Y]; [|auto]. apply H2. apply in_or_app. right. assumption.
    + rewrite <- app_assoc. cbn [app]. apply NoDup_Add with (a := p) (l := l ++ fr1); [apply Add_app|split; assumption].
    + intros q Q. rewrite L3, L2, L1. apply LT. apply IN. exact Q.
    + symmetry. apply last_opt_snoc.
    + rewrite !map_app. cbn [map]. rewrite D3, D2, D1. f_equal. rewrite <- D. apply map_ext_in. intros x H. rewrite D3, D2. apply D1'. intros ->. apply Np. apply in_or_app. left. assumption.
    + rewrite Es, (G_size _ _ _ _ I), app_length. cbn [length]. rewrite Nat.add_1_r. apply mod_step.
  - cbn [f_cells]. destruct Fr as [F1 F2]. split; [lia|]. intros q Q NI. assert (q <> p) as QP by (intros ->; destruct Op; [contradiction|lia]).
    rewrite N3 by (intros Y; apply NI; apply in_or_app; left; exact Y). rewrite N2', N1, D3, D2, D1' by exact QP. apply F2; assumption.
  - intros q Q. apply LT. apply IN. exact Q.
Qed.
Lemma ginv_len f d l fr : GInv f d l fr -> length l = length d.
Proof. intros I. pose proof (f_equal (@length _) (G_data _ _ _ _ I)) as E. rewrite !map_length in E. exact E. Qed.
Lemma gget f d l fr : GInv f d l fr ->
  exists f' l' fr', fifo_get f = Ok (f', snd (dstep d FGet)) /\ GInv f' (fst (dstep d FGet)) l' fr' /\ frame (f_cells f) (f_cells f') (l ++ fr) /\
    (forall q, In q (l' ++ fr') -> In q (l ++ fr)) /\ (l ++ fr = [] -> f' = f).
Proof.
  intros I. pose proof (ginv_len _ _ _ _ I) as L1. unfold fifo_get. destruct l as [|h l].
  - destruct d; [|discriminate]. rewrite (chain_head _ _ _ (G_chain _ _ _ _ I)). cbn [hd_error dstep fst snd]. exists f, [], fr. split; [reflexivity|split; [exact I|split; [apply frame_refl|split; auto]]].
  - destruct d as [|v d]; [discriminate|]. pose proof (G_chain _ _ _ _ I) as C. destruct C as (-> & n & N & C).
    pose proof (G_nodup _ _ _ _ I) as ND0. cbn [app] in ND0. pose proof ND0 as ND. apply NoDup_cons_iff in ND. destruct ND as [Nh ND].
    assert (Hh : (h < length (f_cells f))%nat) by (apply (G_lt _ _ _ _ I); left; reflexivity).
    destruct (rd_some _ _ _ Hh) as (nd & R & E). unfold node_next, node_data. rewrite R. cbn [bind].
    pose proof N as N'. unfold nxt in N'. rewrite E in N'. injection N' as <-.
    pose proof (G_data _ _ _ _ I) as D. cbn [map] in D. injection D as Dh D. unfold dat in Dh. rewrite E in Dh. cbn in Dh. injection Dh as ->.
    unfold release. destruct (set_next_ok _ h (f_free f) Hh) as (m & Em & Lm & Nm & Nm' & Dm). rewrite Em. cbn [bind f_cells f_tail f_free f_size dstep fst snd].
    assert (forall q, In q (l ++ h :: fr) -> In q (h :: l ++ fr)) as IN by (intros q Q; apply in_app_or in Q; destruct Q as [Q|[Q|Q]]; [right; apply in_or_app; left; exact Q|left; exact Q|right; apply in_or_app; right; exact Q]).
    eexists _, l, (h :: fr). split; [reflexivity|]. split; [|split; [|split; [exact IN|discriminate]]].
    + constructor; cbn [f_cells f_head f_tail f_free f_size].
      * eapply chain_ext; [|exact C]. intros x H. apply Nm'. intros ->. apply Nh. apply in_or_app. left. assumption.
      * split; [reflexivity|]. exists (f_free f). split; [assumption|]. eapply chain_ext; [|apply (G_free _ _ _ _ I)]. intros x H. apply Nm'. intros ->. apply Nh. apply in_or_app. right. assumption.
      * apply NoDup_Add with (a := h) (l := l ++ fr); [apply Add_app|split; assumption].
      * intros q Q. rewrite Lm. apply (G_lt _ _ _ _ I). apply IN. exact Q.
      * rewrite (G_tail _ _ _ _ I), last_opt_cons. rewrite (chain_head _ _ _ C). destruct l as [|y l]; [reflexivity|]. cbn [hd_error]. destruct (last_opt (y :: l)) eqn:Z; [reflexivity|]. apply last_opt_none in Z. discriminate.
      * rewrite <- D. apply map_ext. assumption.
      * rewrite (G_size _ _ _ _ I). cbn [length]. apply mod_step_back.
    + cbn [f_cells]. split; [lia|]. intros q Q NI. rewrite Nm', Dm by (intros ->; apply NI; left; reflexivity). auto.
Qed.
Lemma gfront f d l fr : GInv f d l fr -> fifo_front f = Ok (snd (dstep d FFront)).
Proof.
  intros I. pose proof (ginv_len _ _ _ _ I) as L1. unfold fifo_front. rewrite (chain_head _ _ _ (G_chain _ _ _ _ I)).
  destruct l as [|h l]; destruct d as [|v d]; try discriminate; [reflexivity|]. cbn [hd_error dstep snd].
  pose proof (G_data _ _ _ _ I) as D. cbn [map] in D. injection D as Dh D. unfold node_data, rd. unfold dat in Dh. destruct (nth_error (f_cells f) h); [|discriminate]. cbn in *. congruence.
Qed.
Lemma gstep f d l fr o : GInv f d l fr ->
  exists f' l' fr', fstep f o = Ok (f', snd (dstep d o)) /\ GInv f' (fst (dstep d o)) l' fr' /\ frame (f_cells f) (f_cells f') (l ++ fr) /\
    (forall q, In q (l' ++ fr') -> In q (l ++ fr) \/ (length (f_cells f) <= q)%nat) /\ (is_put o = false -> l ++ fr = [] -> f' = f).
Proof.
  intros I. destruct o as [v|v| | |]; cbn [fstep is_put].
  - destruct (gput _ _ _ _ v I) as (f' & l' & fr' & -> & G & F & Q). exists f', l', fr'. split; [reflexivity|split; [exact G|split; [exact F|split; [exact Q|discriminate]]]].
  - destruct (gpush_front _ _ _ _ v I) as (f' & l' & fr' & -> & G & F & Q). exists f', l', fr'. split; [reflexivity|split; [exact G|split; [exact F|split; [exact Q|discriminate]]]].
  - destruct (gget _ _ _ _ I) as (f' & l' & fr' & -> & G & F & Q & K). exists f', l', fr'. split; [reflexivity|split; [exact G|split; [exact F|split; [intros q H; left; exact (Q q H)|intros _; exact K]]]].
  - rewrite (gfront _ _ _ _ I). exists f, l, fr. split; [reflexivity|split; [exact I|split; [apply frame_refl|split; auto]]].
  - exists f, l, fr. unfold fifo_sz. rewrite (G_size _ _ _ _ I). split; [reflexivity|split; [exact I|split; [apply frame_refl|split; auto]]].
Qed.
Lemma gframe m m' b d l fr own : GInv (pack m b) d l fr -> frame m m' own -> (forall q, In q (l ++ fr) -> ~ In q own) -> GInv (pack m' b) d l fr.
Proof.
  intros [C Cf ND LT T D S1] [F1 F2] Dj. cbn [pack f_cells f_head f_tail f_free f_size] in *.
  assert (forall q, In q (l ++ fr) -> nxt m' q = nxt m q /\ dat m' q = dat m q) as K by (intros q Q; apply F2; [exact (LT q Q)|exact (Dj q Q)]).
  constructor; cbn [pack f_cells f_head f_tail f_free f_size]; try assumption.
  - eapply chain_ext; [|exact C]. intros x H. apply K. apply in_or_app. left. exact H.
  - eapply chain_ext; [|exact Cf]. intros x H. apply K. apply in_or_app. right. exact H.
  - intros q Q. specialize (LT q Q). lia.
  - rewrite <- D. apply map_ext_in. intros x H. apply K. apply in_or_app. left. exact H.
Qed.

(** ** All FIFOs *)
Definition nodes_of (L : nat -> list nat * list nat) (x : nat) : list nat := fst (L x) ++ snd (L x).
Definition holding (s : knows) (x : nat) : Prop := exists d b, s x = Some (Holds d b).
Definition INV (w : world) (s : knows) (L : nat -> list nat * list nat) : Prop :=
  (forall x, s x <> None -> vars w x <> None) /\
  (forall x d b, s x = Some (Holds d b) -> exists o, vars w x = Some o /\ GInv (pack (heap w) o) d (fst (L x)) (snd (L x)) /\ (b = false -> nodes_of L x = [])) /\
  (forall x y q, x <> y -> holding s x -> holding s y -> In q (nodes_of L x) -> ~ In q (nodes_of L y)).
Definition set_L (L : nat -> list nat * list nat) (x : nat) (v : list nat * list nat) : nat -> list nat * list nat := fun y => if (y =? x)%nat then v else L y.
Lemma ginv_obj0 m : GInv (pack m obj0) [] [] [].
Proof. constructor; try reflexivity; [constructor|intros q []]. Qed.
Lemma nodes_set L x v y : nodes_of (set_L L x v) y = if (y =? x)%nat then fst v ++ snd v else nodes_of L y.
Proof. unfold nodes_of, set_L. destruct (y =? x)%nat; reflexivity. Qed.
Lemma step_INV w s L o : INV w s L -> (match o with Copy _ x => s x <> None | Use x _ => exists d b, s x = Some (Holds d b) | _ => True end) ->
  exists w' L', step w o = Ok (w', snd (learn s o)) /\ INV w' (fst (learn s o)) L'.
Proof.
  intros (I1 & I2 & I3) LE. destruct o as [x|y x|x f|x]; cbn [step learn fst snd].
  - exists (W (heap w) (set_var (vars w) x (Some obj0))), (set_L L x ([], [])). split; [reflexivity|]. unfold INV, set_know, set_var, holding; cbn [heap vars]. split; [|split].
    + intros z. destruct (z =? x)%nat; [discriminate|apply I1].
    + intros z d b. rewrite nodes_set. unfold set_L. destruct (z =? x)%nat; [|apply I2]. intros E. injection E as <- <-. exists obj0. split; [reflexivity|split; [apply ginv_obj0|reflexivity]].
    + intros a c q D. rewrite !nodes_set. destruct (Nat.eqb_spec a x) as [->|A]; destruct (Nat.eqb_spec c x) as [->|C]; cbn [fst snd app In]; try contradiction; [tauto|]. intros Ha Hc. exact (I3 a c q D Ha Hc).
  - specialize (I1 x LE) as VX. destruct (vars w x) as [o|] eqn:E; [|contradiction VX; reflexivity]. destruct (Nat.eqb_spec y x) as [->|D].
    + exists (W (heap w) (set_var (vars w) x (Some o))), L. split; [reflexivity|]. unfold INV, set_var; cbn [heap vars]. split; [|split].
      * intros z. destruct (z =? x)%nat; [discriminate|apply I1].
      * intros z d b H. destruct (Nat.eqb_spec z x) as [->|N]; [rewrite <- E|]; exact (I2 _ d b H).
      * exact I3.
    + exists (W (heap w) (set_var (vars w) y (Some o))), (set_L L y (L x)). split; [reflexivity|]. unfold INV, set_var; cbn [heap vars].
      set (s1 := match s x with Some (Holds d true) => set_know s x (Some Stale) | _ => s end).
      assert (forall z, s1 z <> None -> s z <> None) as S1 by (intros z; unfold s1; destruct (s x) as [[d [|]|]|] eqn:Q; try auto; unfold set_know; destruct (Nat.eqb_spec z x) as [->|]; [rewrite Q; discriminate|auto]).
      assert (forall z d b, s1 z = Some (Holds d b) -> s z = Some (Holds d b) /\ (z = x -> b = false)) as S2.
      { intros z d b. unfold s1. destruct (s x) as [[d0 [|]|]|] eqn:Q; unfold set_know; intros H.
        - destruct (Nat.eqb_spec z x) as [->|]; [discriminate|]. split; [exact H|contradiction].
        - split; [exact H|]. intros ->. rewrite Q in H. injection H. auto.
        - split; [exact H|]. intros ->. rewrite Q in H. discriminate.
        - split; [exact H|]. intros ->. rewrite Q in H. discriminate. }
      assert (forall z, holding (set_know s1 y (s x)) z -> if (z =? y)%nat then holding s x else holding s z /\ (z = x -> nodes_of L x = [])) as S3.
      { intros z (d & b & H). unfold set_know in H. destruct (Nat.eqb_spec z y) as [->|N]; [exists d, b; exact H|]. destruct (S2 _ _ _ H) as [A B]. split; [exists d, b; exact A|].
        intros ->. destruct (I2 _ _ _ A) as (o2 & _ & _ & K). exact (K (B eq_refl)). }
      split; [|split].
      * intros z. unfold set_know. destruct (z =? y)%nat; [discriminate|]. intros H. apply I1. apply S1. exact H.
      * intros z d b. rewrite nodes_set. unfold set_know, set_L. destruct (Nat.eqb_spec z y) as [->|N]; intros H; [rewrite <- E; exact (I2 _ _ _ H)|]. apply I2. apply S2. exact H.
      * intros a c q AC Ha Hc. apply S3 in Ha. apply S3 in Hc. rewrite !nodes_set. destruct (Nat.eqb_spec a y) as [->|A]; destruct (Nat.eqb_spec c y) as [->|C]; try contradiction.
        -- destruct Hc as [Hc K]. fold (nodes_of L x). destruct (Nat.eq_dec c x) as [->|CX]; [rewrite (K eq_refl); intros []|]. apply (I3 x c q); auto.
        -- destruct Ha as [Ha K]. fold (nodes_of L x). destruct (Nat.eq_dec a x) as [->|AX]; [rewrite (K eq_refl); intros []|]. apply (I3 a x q); auto.
        -- apply (I3 a c q); [exact AC|apply Ha|apply Hc].
  - destruct LE as (d & b & S1). rewrite S1. destruct (I2 _ _ _ S1) as (o & V & G & K). rewrite V. destruct (gstep _ _ _ _ f G) as (f' & l' & fr' & E & G' & F & Q & U). rewrite E. cbn [bind fst snd].
    exists (W (f_cells f') (set_var (vars w) x (Some (members f')))), (set_L L x (l', fr')). split; [reflexivity|]. cbn [pack f_cells] in F, Q. unfold INV, set_know, set_var, holding; cbn [heap vars]. split; [|split].
    + intros z. destruct (z =? x)%nat; [discriminate|apply I1].
    + intros z d1 b1. rewrite nodes_set. unfold set_L. destruct (Nat.eqb_spec z x) as [->|N]; intros H.
      * injection H as <- <-. exists (members f'). split; [reflexivity|]. destruct f' as [m' h' t' r' n']. split; [exact G'|]. cbn [fst snd]. intros B. apply orb_false_iff in B. destruct B as [-> B].
        specialize (K eq_refl). unfold nodes_of in K. specialize (U B K). destruct o as [h t r n]. cbn [pack] in U. injection U as -> -> -> -> ->. cbn [fst snd] in *.
        apply app_eq_nil in K. destruct K as [K1 K2]. rewrite K1, K2 in G. pose proof (chain_head _ _ _ (G_chain _ _ _ _ G)) as A1. pose proof (chain_head _ _ _ (G_free _ _ _ _ G)) as A2. cbn [hd_error f_head f_free pack o_head o_free] in A1, A2. subst h r.
        pose proof (G_chain _ _ _ _ G') as C1. pose proof (G_free _ _ _ _ G') as C2. cbn [f_head f_free] in C1, C2. destruct l'; [|destruct C1; discriminate]. destruct fr'; [reflexivity|destruct C2; discriminate].
      * destruct (I2 _ _ _ H) as (o2 & V2 & G2 & K2). exists o2. split; [exact V2|split; [|exact K2]]. apply (gframe _ _ _ _ _ _ _ G2 F). intros q Y. apply (I3 z x q N); [exists d1, b1; exact H|exists d, b; exact S1|exact Y].
    + assert (forall z q, z <> x -> holding s z -> In q (nodes_of L z) -> ~ In q (l' ++ fr')) as DJ.
      { intros z q N H Y X. apply Q in X. destruct X as [X|X].
        - apply (I3 z x q N H); [exists d, b; exact S1|exact Y|exact X].
        - destruct H as (d2 & b2 & H). destruct (I2 _ _ _ H) as (o2 & _ & G2 & _). pose proof (G_lt _ _ _ _ G2 q Y) as B. cbn [pack f_cells] in B. lia. }
      intros a c q AC Ha Hc. rewrite !nodes_set. destruct (Nat.eqb_spec a x) as [->|A]; destruct (Nat.eqb_spec c x) as [->|C]; try contradiction; cbn [fst snd].
      * intros X Y. exact (DJ c q C Hc Y X).
      * intros X. exact (DJ a q A Ha X).
      * exact (I3 a c q AC Ha Hc).
  - exists (W (heap w) (set_var (vars w) x None)), L. split; [reflexivity|]. unfold INV, set_know, set_var, holding; cbn [heap vars]. split; [|split].
    + intros z. destruct (z =? x)%nat; [auto|apply I1].
    + intros z d b. destruct (z =? x)%nat; [discriminate|apply I2].
    + intros a c q AC (d1 & b1 & Ha) (d2 & b2 & Hc). destruct (a =? x)%nat; [discriminate|]. destruct (c =? x)%nat; [discriminate|]. apply (I3 a c q AC); [exists d1, b1; exact Ha|exists d2, b2; exact Hc].
Qed.
Lemma run_INV p : forall w s L, INV w s L -> legal s p -> exists w', run w p = Ok (w', learned s p).
Proof.
  induction p as [|o p IH]; intros w s L I LE; [exists w; reflexivity|]. destruct LE as [L1 L2]. destruct (step_INV _ _ _ _ I L1) as (w1 & La & E & I1). destruct (IH _ _ _ I1 L2) as (w2 & R).
  exists w2. cbn [run learned]. rewrite E. cbn [bind fst snd]. rewrite R. reflexivity.
Qed.

(** ** The theorems *)
(** Any number of FIFOs in one memory: as long as a FIFO that has been copied is not used again - unless nothing had
    ever been put there - every call gives what the FIFO of its own gives, the copy going on where the original was. *)
Theorem C115_moves : forall p, legal knows0 p -> exists w, run world0 p = Ok (w, learned knows0 p).
Proof.
  intros p. apply (run_INV p world0 knows0 (fun _ => ([], []))). split; [|split].
  - intros x H. contradiction H; reflexivity.
  - discriminate.
  - intros x y q _ (d & b & H). discriminate.
Qed.
Print Assumptions C115_moves.

(** Defect: a copy hands out the same pointers again, and taking from one makes the other lose the rest, though its
    size still counts them. *)
Theorem C115_lost_refuted : forall a b, exists w,
  run world0 [New 1; Use 1 (FPut a); Use 1 (FPut b); Copy 2 1; Use 1 FGet; Use 2 FGet; Use 2 FGet; Use 2 FSize] = Ok (w, [0; 0; 0; 0; a; a; 0; 1]).
Proof. intros a b. eexists. vm_compute. reflexivity. Qed.
Print Assumptions C115_lost_refuted.

(** Defect: what is put into the copy appears in the original, whose size then runs below zero. *)
Theorem C115_below_refuted : forall a b, exists w,
  run world0 [New 1; Use 1 (FPut a); Copy 2 1; Use 2 (FPut b); Use 1 FGet; Use 1 FGet; Use 1 FSize] = Ok (w, [0; 0; 0; 0; a; b; 2 ^ 32 - 1]).
Proof. intros a b. eexists. vm_compute. reflexivity. Qed.
Print Assumptions C115_below_refuted.

(** Defect: with an empty FIFO that has been in use, what is put into the copy replaces what is put into the original. *)
Theorem C115_replaced_refuted : forall a b c, exists w,
  run world0 [New 1; Use 1 (FPut a); Use 1 FGet; Copy 2 1; Use 1 (FPut b); Use 2 (FPut c); Use 1 FGet] = Ok (w, [0; 0; a; 0; 0; 0; c]).
Proof. intros a b c. eexists. vm_compute. reflexivity. Qed.
Print Assumptions C115_replaced_refuted.

(** Defect: no node is ever given back: a FIFO used once and destroyed leaves one behind, every time. *)
Theorem C115_leak_refuted : forall n a, exists w os,
  run world0 (concat (repeat [New 1; Use 1 (FPut a); Use 1 FGet; Drop 1] n)) = Ok (w, os) /\ length (heap w) = n /\ forall x, vars w x = None.
Proof.
  intros n a. enough (forall m v, (forall x, v x = None) -> exists w os, run (W m v) (concat (repeat [New 1; Use 1 (FPut a); Use 1 FGet; Drop 1] n)) = Ok (w, os) /\ length (heap w) = (length m + n)%nat /\ forall x, vars w x = None) as H by (apply (H [] (fun _ => None)); reflexivity).
  induction n as [|n IH]; intros m v V.
  - exists (W m v), []. split; [reflexivity|]. split; [cbn [heap]; lia|exact V].
  - cbn [repeat concat]. destruct (gput (pack m obj0) [] [] [] a (ginv_obj0 m)) as (f1 & l1 & fr1 & E1 & G1 & _).
    assert (length (f_cells f1) = S (length m)) as L1.
    { unfold fifo_put, allocate, pack, obj0 in E1. cbn [f_free o_free o_head o_tail o_size f_head f_tail f_size f_cells bind] in E1.
      destruct (set_data_ok (m ++ [(None, 0)]) (length m) a) as (m1 & X1 & Y1 & _); [rewrite app_length; cbn [length]; lia|]. rewrite X1 in E1. cbn [bind] in E1.
      destruct (set_next_ok m1 (length m) None) as (m2 & X2 & Y2 & _); [rewrite Y1, app_length; cbn [length]; lia|]. rewrite X2 in E1. cbn [bind] in E1. injection E1 as <-. cbn [f_cells]. rewrite Y2, Y1, app_length. cbn [length]. lia. }
    destruct (gget f1 [a] l1 fr1 G1) as (f2 & l2 & fr2 & E2 & G2 & _).
    assert (length (f_cells f2) = length (f_cells f1)) as L2.
    { unfold fifo_get in E2. destruct (f_head f1) as [h|]; [|injection E2 as <- _; reflexivity]. unfold node_next, node_data, release, set_next in E2.
      destruct (rd (f_cells f1) h) as [nd| | |]; try discriminate. cbn [bind] in E2. unfold wr in E2. destruct (h <? length (f_cells f1))%nat; [|discriminate]. cbn [bind f_cells] in E2. injection E2 as <- _. cbn [f_cells]. apply upd_length. }
    destruct (IH (f_cells f2) (set_var (set_var (set_var (set_var v 1%nat (Some obj0)) 1%nat (Some (members f1))) 1%nat (Some (members f2))) 1%nat None)) as (w & os & R & Lw & Vw).
    { intros x. unfold set_var. destruct (x =? 1)%nat; [reflexivity|apply V]. }
    exists w, (0 :: 0 :: a :: 0 :: os). split; [|split; [lia|exact Vw]].
    cbn [app run step bind fst snd heap vars]. unfold set_var at 1. rewrite Nat.eqb_refl. cbn [fstep]. rewrite E1. cbn [bind fst snd run step heap vars]. unfold set_var at 1. rewrite Nat.eqb_refl.
    replace (pack (f_cells f1) (members f1)) with f1 by (destruct f1; reflexivity). cbn [fstep]. rewrite E2. cbn [bind fst snd dstep run step heap vars]. rewrite R. reflexivity.
Qed.
Print Assumptions C115_leak_refuted.

(** A queue is handed on to a second variable and then to a third, an unused one is copied and both are used, and a
    stale one is assigned to and used again. *)
Definition prog115 : list op :=
  [New 1; Use 1 (FPut 10); Use 1 (FPut 20); Use 1 FGet; Copy 2 1; Use 2 (FPut 30); New 4; Copy 5 4; Use 4 (FPut 40); Use 5 (FPut 50);
   Copy 3 2; Use 3 FGet; Use 3 FGet; Copy 1 4; Use 1 FGet; Use 5 FGet; Use 3 FSize]%nat.
Example C115_ex : legal knows0 prog115 /\ learned knows0 prog115 = [0; 0; 0; 10; 0; 0; 0; 0; 0; 0; 0; 20; 30; 0; 40; 50; 0] /\
  exists w, run world0 prog115 = Ok (w, learned knows0 prog115).
Proof.
  split; [|split; [vm_compute; reflexivity|eexists; vm_compute; reflexivity]]. repeat (split; [first [exact I | vm_compute; discriminate | do 2 eexists; vm_compute; reflexivity]|]). exact I.
Qed.
