(** Proofs about the linked lists. *)
From Coq Require Import Permutation.
From Verif Require Import Base BaseFacts ListModel ListSpec.

(** ** Chains of nodes *)
Fixpoint chain (nx : nat -> option (option nat)) (p : option nat) (l : list nat) : Prop :=
  match l with
  | [] => p = None
  | x :: t => p = Some x /\ exists n, nx x = Some n /\ chain nx n t
  end.

Lemma chain_ext : forall nx nx' l p, (forall x, In x l -> nx' x = nx x) -> chain nx p l -> chain nx' p l.
Proof.
  induction l as [|x t IH]; intros p E C; [exact C|]. destruct C as (-> & n & N & C). split; [reflexivity|].
  exists n. split; [rewrite E by (left; reflexivity); assumption|]. apply IH; [intros y Y; apply E; right; assumption|assumption].
Qed.

Lemma chain_snoc : forall nx nx' l t q p, NoDup (l ++ [t]) -> chain nx p (l ++ [t]) ->
  (forall x, In x l -> nx' x = nx x) -> nx' t = Some (Some q) -> nx' q = Some None -> chain nx' p (l ++ [t; q]).
Proof.
  induction l as [|x l IH]; intros t q p ND C E T Q.
  - destruct C as (-> & _). cbn. split; [reflexivity|]. exists (Some q). split; [assumption|]. split; [reflexivity|]. exists None. auto.
  - cbn [app] in *. destruct C as (-> & n & N & C). inversion ND; subst. split; [reflexivity|]. exists n.
    split; [rewrite E by (left; reflexivity); assumption|]. eapply IH; try eassumption. intros y Y. apply E. right. assumption.
Qed.

Lemma chain_head : forall nx p l, chain nx p l -> p = hd_error l.
Proof. intros nx p [|x l] C; [exact C|]. destruct C as (-> & _). reflexivity. Qed.

Lemma last_opt_snoc : forall A (l : list A) x, last_opt (l ++ [x]) = Some x.
Proof.
  induction l as [|a l IH]; intros x; [reflexivity|]. cbn [app last_opt]. rewrite IH.
  destruct (l ++ [x]) eqn:E; [|reflexivity]. destruct l; discriminate.
Qed.

Lemma last_opt_cons : forall A (l : list A) x, last_opt (x :: l) = match last_opt l with None => Some x | t => t end.
Proof.
  intros A l x. destruct l as [|y l]; [reflexivity|]. change (last_opt (x :: y :: l)) with (last_opt (y :: l)).
  destruct (last_opt (y :: l)) eqn:E; [reflexivity|]. exfalso. revert y E.
  induction l as [|z l IH]; intros y E; [discriminate|]. apply (IH z). exact E.
Qed.

Lemma last_opt_none : forall A (l : list A), last_opt l = None -> l = [].
Proof.
  intros A l H. destruct l as [|x l] using rev_ind; [reflexivity|]. rewrite last_opt_snoc in H. discriminate.
Qed.

Lemma last_opt_split : forall A (l : list A) t, last_opt l = Some t -> exists l', l = l' ++ [t].
Proof.
  intros A l t H. destruct l as [|x l] using rev_ind; [discriminate|]. rewrite last_opt_snoc in H. injection H as ->. eauto.
Qed.

(** ** PointerFIFO *)
Definition nxt (m : list lnode) (x : nat) : option (option nat) := option_map fst (nth_error m x).
Definition dat (m : list lnode) (x : nat) : option Z := option_map snd (nth_error m x).

Lemma rd_some : forall A (m : list A) p, p < length m -> exists n, rd m p = Ok n /\ nth_error m p = Some n.
Proof.
  intros A m p H. unfold rd. destruct (nth_error m p) as [n|] eqn:E; [eauto|]. apply nth_error_None in E. lia.
Qed.

Lemma wr_ok : forall A (m : list A) p x, p < length m -> wr m p x = Ok (upd m p x).
Proof. intros A m p x H. unfold wr. destruct (Nat.ltb_spec p (length m)); [reflexivity|lia]. Qed.

Lemma set_next_ok : forall m p x, p < length m -> exists m', set_next m p x = Ok m' /\ length m' = length m /\
  nxt m' p = Some x /\ (forall q, q <> p -> nxt m' q = nxt m q) /\ (forall q, dat m' q = dat m q).
Proof.
  intros m p x H. destruct (rd_some _ m p H) as (n & R & E). exists (upd m p (x, snd n)).
  unfold set_next. rewrite R. cbn [bind]. rewrite wr_ok by assumption.
  split; [reflexivity|]. split; [apply upd_length|]. unfold nxt, dat.
  split; [rewrite nth_error_upd_eq by assumption; reflexivity|].
  split; [intros q Q; rewrite nth_error_upd_neq by congruence; reflexivity|].
  intros q. destruct (Nat.eq_dec q p) as [->|N].
  - rewrite nth_error_upd_eq, E by assumption. reflexivity.
  - rewrite nth_error_upd_neq by congruence. reflexivity.
Qed.

Lemma set_data_ok : forall m p x, p < length m -> exists m', set_data m p x = Ok m' /\ length m' = length m /\
  dat m' p = Some x /\ (forall q, q <> p -> dat m' q = dat m q) /\ (forall q, nxt m' q = nxt m q).
Proof.
  intros m p x H. destruct (rd_some _ m p H) as (n & R & E). exists (upd m p (fst n, x)).
  unfold set_data. rewrite R. cbn [bind]. rewrite wr_ok by assumption.
  split; [reflexivity|]. split; [apply upd_length|]. unfold nxt, dat.
  split; [rewrite nth_error_upd_eq by assumption; reflexivity|].
  split; [intros q Q; rewrite nth_error_upd_neq by congruence; reflexivity|].
  intros q. destruct (Nat.eq_dec q p) as [->|N].
  - rewrite nth_error_upd_eq, E by assumption. reflexivity.
  - rewrite nth_error_upd_neq by congruence. reflexivity.
Qed.

Record FInv (f : fifo) (d : list Z) (l fr : list nat) : Prop := {
  F_chain : chain (nxt (f_cells f)) (f_head f) l;
  F_free : chain (nxt (f_cells f)) (f_free f) fr;
  F_perm : Permutation (l ++ fr) (seq 0 (length (f_cells f)));
  F_tail : f_tail f = last_opt l;
  F_data : map (dat (f_cells f)) l = map Some d;
  F_size : f_size f = (Z.of_nat (length d) mod 2 ^ 32)%Z
}.

Lemma finv_empty : FInv fifo_empty [] [] [].
Proof. constructor; try reflexivity. Qed.

Lemma finv_len : forall f d l fr, FInv f d l fr -> length l = length d /\ length l + length fr = length (f_cells f).
Proof.
  intros f d l fr I. split.
  - pose proof (f_equal (@length _) (F_data _ _ _ _ I)) as E. rewrite !map_length in E. assumption.
  - pose proof (Permutation_length (F_perm _ _ _ _ I)) as E. rewrite app_length, seq_length in E. assumption.
Qed.

Lemma perm_lt : forall l n x, Permutation l (seq 0 n) -> In x l -> x < n.
Proof. intros l n x P H. apply (Permutation_in _ P) in H. apply in_seq in H. lia. Qed.

Lemma perm_nodup : forall l n, Permutation l (seq 0 n) -> NoDup l.
Proof. intros l n P. apply (Permutation_NoDup (Permutation_sym P)). apply seq_NoDup. Qed.

Lemma nodup_app_l : forall A (a b : list A), NoDup (a ++ b) -> NoDup a.
Proof.
  induction a as [|x a IH]; intros b H; [constructor|]. cbn [app] in H. apply NoDup_cons_iff in H. destruct H as [H1 H2].
  constructor; [intros K; apply H1; apply in_or_app; left; assumption|eapply IH; eassumption].
Qed.

Lemma nodup_snoc : forall A (a : list A) x, NoDup a -> ~ In x a -> NoDup (a ++ [x]).
Proof.
  induction a as [|y a IH]; intros x N H; cbn [app]; [constructor; [exact H|constructor]|].
  apply NoDup_cons_iff in N. destruct N as [N1 N2]. constructor.
  - intros K. apply in_app_or in K. destruct K as [K|[->|[]]]; [contradiction|]. apply H. left. reflexivity.
  - apply IH; [assumption|]. intros K. apply H. right. assumption.
Qed.

Lemma allocate_ok : forall f d l fr, FInv f d l fr ->
  exists f1 p fr1, allocate f = Ok (f1, p) /\ f_head f1 = f_head f /\ f_tail f1 = f_tail f /\ f_size f1 = f_size f /\
    chain (nxt (f_cells f1)) (f_head f) l /\ chain (nxt (f_cells f1)) (f_free f1) fr1 /\
    Permutation (p :: l ++ fr1) (seq 0 (length (f_cells f1))) /\
    map (dat (f_cells f1)) l = map Some d /\
    length (f_cells f1) = Nat.max (length (f_cells f)) (S (length l)).
Proof.
  intros f d l fr I. destruct (finv_len _ _ _ _ I) as [L1 L2]. unfold allocate. destruct fr as [|p fr].
  - rewrite (chain_head _ _ _ (F_free _ _ _ _ I)). cbn [hd_error].
    eexists _, _, []. split; [reflexivity|]. cbn [f_head f_tail f_size f_cells f_free].
    do 3 (split; [reflexivity|]).
    assert (O : forall x, In x l -> nth_error (f_cells f ++ [(None, 0%Z)]) x = nth_error (f_cells f) x).
    { intros x H. apply nth_error_app1. apply (perm_lt (l ++ [])); [apply (F_perm _ _ _ _ I)|]. rewrite app_nil_r. assumption. }
    split. { eapply chain_ext; [|apply (F_chain _ _ _ _ I)]. intros x H. unfold nxt. rewrite O by assumption. reflexivity. }
    split; [reflexivity|]. cbn [length] in L2.
    split. { rewrite app_length. cbn [length]. rewrite Nat.add_1_r, seq_S. cbn [plus].
      eapply Permutation_trans; [apply Permutation_cons_append|]. apply Permutation_app_tail. apply (F_perm _ _ _ _ I). }
    split. { rewrite <- (F_data _ _ _ _ I). apply map_ext_in. intros x H. unfold dat. rewrite O by assumption. reflexivity. }
    rewrite app_length. cbn [length]. lia.
  - pose proof (F_free _ _ _ _ I) as C. destruct C as (-> & n & N & C).
    assert (Hp : p < length (f_cells f)). { apply (perm_lt (l ++ p :: fr)); [apply (F_perm _ _ _ _ I)|]. apply in_or_app. right. left. reflexivity. }
    unfold node_next. destruct (rd_some _ _ _ Hp) as (nd & R & E). rewrite R. cbn [bind].
    unfold nxt in N. rewrite E in N. injection N as <-.
    eexists _, p, fr. split; [reflexivity|]. cbn [f_head f_tail f_size f_cells f_free].
    do 3 (split; [reflexivity|]). split; [apply (F_chain _ _ _ _ I)|]. split; [assumption|].
    split. { eapply Permutation_trans; [apply Permutation_middle|]. apply (F_perm _ _ _ _ I). }
    split; [apply (F_data _ _ _ _ I)|]. cbn [length] in L2. lia.
Qed.

Lemma mod_step : forall n, (u32 (Z.of_nat n mod 2 ^ 32 + 1) = Z.of_nat (S n) mod 2 ^ 32)%Z.
Proof. intros n. unfold u32. rewrite Zplus_mod_idemp_l. f_equal. lia. Qed.

Lemma mod_step_back : forall n, (u32 (Z.of_nat (S n) mod 2 ^ 32 - 1) = Z.of_nat n mod 2 ^ 32)%Z.
Proof. intros n. unfold u32. rewrite Zminus_mod_idemp_l. f_equal. lia. Qed.

Lemma push_front_ok : forall f d l fr v, FInv f d l fr ->
  exists f' p fr', fifo_push_front f v = Ok f' /\ FInv f' (v :: d) (p :: l) fr' /\
    length (f_cells f') = Nat.max (length (f_cells f)) (S (length l)).
Proof.
  intros f d l fr v I. destruct (allocate_ok _ _ _ _ I) as (f1 & p & fr1 & E & Eh & Et & Es & C & Cf & P & D & Len).
  unfold fifo_push_front. rewrite E. cbn [bind].
  pose proof (perm_nodup _ _ P) as ND. apply NoDup_cons_iff in ND. destruct ND as [Np ND].
  assert (Hp : p < length (f_cells f1)) by (eapply perm_lt; [eassumption|left; reflexivity]).
  destruct (set_data_ok _ p v Hp) as (m1 & E1 & L1 & D1 & D1' & N1). rewrite E1. cbn [bind].
  destruct (set_next_ok m1 p (f_head f1)) as (m2 & E2 & L2 & N2 & N2' & D2); [lia|]. rewrite E2. cbn [bind].
  exists {| f_cells := m2; f_head := Some p; f_tail := match f_tail f1 with None => Some p | t => t end; f_free := f_free f1; f_size := u32 (f_size f1 + 1) |}, p, fr1.
  split; [destruct (f_tail f1); reflexivity|].
  split.
  - constructor; cbn [f_cells f_head f_tail f_free f_size].
    + split; [reflexivity|]. exists (f_head f1). split; [assumption|]. rewrite Eh.
      eapply chain_ext; [|exact C]. intros x H. rewrite N2', N1; [reflexivity|]. intros ->. apply Np. apply in_or_app. left. assumption.
    + eapply chain_ext; [|exact Cf]. intros x H. rewrite N2', N1; [reflexivity|]. intros ->. apply Np. apply in_or_app. right. assumption.
    + cbn [app]. rewrite L2, L1. assumption.
    + rewrite last_opt_cons, Et, (F_tail _ _ _ _ I). reflexivity.
    + cbn [map]. rewrite D2, D1. f_equal. rewrite <- D. apply map_ext_in. intros x H. rewrite D2. apply D1'. intros ->. apply Np. apply in_or_app. left. assumption.
    + rewrite Es, (F_size _ _ _ _ I). apply mod_step.
  - cbn [f_cells]. lia.
Qed.

Lemma put_ok : forall f d l fr v, FInv f d l fr ->
  exists f' p fr', fifo_put f v = Ok f' /\ FInv f' (d ++ [v]) (l ++ [p]) fr' /\
    length (f_cells f') = Nat.max (length (f_cells f)) (S (length l)).
Proof.
  intros f d l fr v I. destruct (allocate_ok _ _ _ _ I) as (f1 & p & fr1 & E & Eh & Et & Es & C & Cf & P & D & Len).
  unfold fifo_put. rewrite E. cbn [bind].
  pose proof (perm_nodup _ _ P) as ND. apply NoDup_cons_iff in ND. destruct ND as [Np ND].
  assert (Hp : p < length (f_cells f1)) by (eapply perm_lt; [eassumption|left; reflexivity]).
  destruct (set_data_ok _ p v Hp) as (m1 & E1 & L1 & D1 & D1' & N1). rewrite E1. cbn [bind].
  destruct (set_next_ok m1 p None) as (m2 & E2 & L2 & N2 & N2' & D2); [lia|]. rewrite E2. cbn [bind].
  rewrite Et, (F_tail _ _ _ _ I).
  assert (X : exists m3, (match last_opt l with Some t => set_next m2 t (Some p) | None => Ok m2 end) = Ok m3 /\ length m3 = length m2 /\
     chain (nxt m3) (match f_head f1 with None => Some p | h => h end) (l ++ [p]) /\ (forall q, dat m3 q = dat m2 q) /\
     (forall q, ~ In q l -> nxt m3 q = nxt m2 q)).
  { destruct (last_opt l) as [t|] eqn:Lt.
    - destruct (last_opt_split _ _ _ Lt) as (l' & ->).
      assert (Ht : t < length m2). { rewrite L2, L1. eapply perm_lt; [eassumption|]. right. apply in_or_app. left. apply in_or_app. right. left. reflexivity. }
      assert (Npt : p <> t). { intros ->. apply Np. apply in_or_app. left. apply in_or_app. right. left. reflexivity. }
      destruct (set_next_ok m2 t (Some p) Ht) as (m3 & E3 & L3 & N3 & N3' & D3). exists m3. split; [assumption|]. split; [assumption|].
      apply nodup_app_l in ND. rewrite Eh.
      assert (Hh : f_head f <> None). { rewrite (chain_head _ _ _ C). destruct l'; discriminate. }
      split; [|split; [assumption|]].
      + rewrite <- app_assoc. cbn [app]. replace (match f_head f with None => Some p | Some n => Some n end) with (f_head f) by (destruct (f_head f); congruence).
        apply (chain_snoc (nxt (f_cells f1))); try assumption.
        * intros x H. pose proof (NoDup_remove_2 l' [] t ND) as Nt. rewrite app_nil_r in Nt.
          rewrite N3', N2', N1; [reflexivity| |].
          -- intros ->. apply Np. apply in_or_app. left. apply in_or_app. left. assumption.
          -- intros ->. contradiction.
        * rewrite N3' by assumption. assumption.
      + intros q Q. apply N3'. intros ->. apply Q. apply in_or_app. right. left. reflexivity.
    - apply last_opt_none in Lt. subst l. exists m2. split; [reflexivity|]. split; [reflexivity|].
      split; [|split; reflexivity]. rewrite Eh, (chain_head _ _ _ C). cbn. split; [reflexivity|]. exists None. auto. }
  destruct X as (m3 & E3 & L3 & C3 & D3 & N3). rewrite E3. cbn [bind].
  eexists _, p, fr1. split; [reflexivity|]. split.
  - constructor; cbn [f_cells f_head f_tail f_free f_size].
    + assumption.
    + eapply chain_ext; [|exact Cf]. intros x H. rewrite N3, N2', N1; [reflexivity| |].
      * intros ->. apply Np. apply in_or_app. right. assumption.
      * intros Y. clear - ND H Y. induction l as [|a l IH]; [contradiction|]. cbn [app] in ND. inversion ND; subst.
        destruct Y as [->|Y]; [|auto]. apply H2. apply in_or_app. right. assumption.
    + rewrite L3, L2, L1. rewrite <- app_assoc. cbn [app]. eapply Permutation_trans; [|exact P]. apply Permutation_sym. apply Permutation_middle.
    + symmetry. apply last_opt_snoc.
    + rewrite !map_app. cbn [map]. rewrite D3, D2, D1. f_equal. rewrite <- D. apply map_ext_in. intros x H. rewrite D3, D2. apply D1'.
      intros ->. apply Np. apply in_or_app. left. assumption.
    + rewrite Es, (F_size _ _ _ _ I), app_length. cbn [length]. rewrite Nat.add_1_r. apply mod_step.
  - cbn [f_cells]. lia.
Qed.

Lemma get_ok : forall f d l fr, FInv f d l fr ->
  exists f' l' fr', fifo_get f = Ok (f', snd (dstep d FGet)) /\ FInv f' (fst (dstep d FGet)) l' fr' /\
    length (f_cells f') = length (f_cells f).
Proof.
  intros f d l fr I. destruct (finv_len _ _ _ _ I) as [L1 L2]. unfold fifo_get. destruct l as [|h l].
  - destruct d; [|discriminate]. rewrite (chain_head _ _ _ (F_chain _ _ _ _ I)). cbn [hd_error dstep fst snd]. exists f, [], fr. auto.
  - destruct d as [|v d]; [discriminate|]. pose proof (F_chain _ _ _ _ I) as C. destruct C as (-> & n & N & C).
    pose proof (F_perm _ _ _ _ I) as P. cbn [app] in P. pose proof (perm_nodup _ _ P) as ND. apply NoDup_cons_iff in ND. destruct ND as [Nh ND].
    assert (Hh : h < length (f_cells f)) by (eapply perm_lt; [eassumption|left; reflexivity]).
    destruct (rd_some _ _ _ Hh) as (nd & R & E). unfold node_next, node_data. rewrite R. cbn [bind].
    pose proof N as N'. unfold nxt in N'. rewrite E in N'. injection N' as <-.
    pose proof (F_data _ _ _ _ I) as D. cbn [map] in D. injection D as Dh D. unfold dat in Dh. rewrite E in Dh. cbn in Dh. injection Dh as ->.
    unfold release. destruct (set_next_ok _ h (f_free f) Hh) as (m & Em & Lm & Nm & Nm' & Dm). rewrite Em. cbn [bind f_cells f_tail f_free f_size dstep fst snd].
    eexists _, l, (h :: fr). split; [reflexivity|]. split; [|exact Lm].
    constructor; cbn [f_cells f_head f_tail f_free f_size].
    + eapply chain_ext; [|exact C]. intros x H. apply Nm'. intros ->. apply Nh. apply in_or_app. left. assumption.
    + split; [reflexivity|]. exists (f_free f). split; [assumption|]. eapply chain_ext; [|apply (F_free _ _ _ _ I)].
      intros x H. apply Nm'. intros ->. apply Nh. apply in_or_app. right. assumption.
    + rewrite Lm. eapply Permutation_trans; [apply Permutation_sym, Permutation_middle|]. assumption.
    + rewrite (F_tail _ _ _ _ I), last_opt_cons. rewrite (chain_head _ _ _ C). destruct l as [|y l]; [reflexivity|]. cbn [hd_error].
      destruct (last_opt (y :: l)) eqn:Z; [reflexivity|]. apply last_opt_none in Z. discriminate.
    + rewrite <- D. apply map_ext. assumption.
    + rewrite (F_size _ _ _ _ I). cbn [length]. apply mod_step_back.
Qed.

Lemma front_ok : forall f d l fr, FInv f d l fr -> fifo_front f = Ok (snd (dstep d FFront)).
Proof.
  intros f d l fr I. destruct (finv_len _ _ _ _ I) as [L1 L2]. unfold fifo_front. rewrite (chain_head _ _ _ (F_chain _ _ _ _ I)).
  destruct l as [|h l]; destruct d as [|v d]; try discriminate; [reflexivity|]. cbn [hd_error dstep snd].
  pose proof (F_data _ _ _ _ I) as D. cbn [map] in D. injection D as Dh D. unfold node_data, rd. unfold dat in Dh.
  destruct (nth_error (f_cells f) h); [|discriminate]. cbn in *. congruence.
Qed.

Lemma frun_refines : forall ops f d l fr, FInv f d l fr ->
  exists f' l' fr', frun f ops = Ok (f', snd (drun d ops)) /\ FInv f' (fst (drun d ops)) l' fr' /\
    length (f_cells f') = Nat.max (length (f_cells f)) (high_water d ops).
Proof.
  induction ops as [|op t IH]; intros f d l fr I.
  - cbn. destruct (finv_len _ _ _ _ I). exists f, l, fr. repeat split; try assumption; try apply I. lia.
  - assert (St : exists f1 l1 fr1, fstep f op = Ok (f1, snd (dstep d op)) /\ FInv f1 (fst (dstep d op)) l1 fr1 /\
        length (f_cells f1) = Nat.max (length (f_cells f)) (length (fst (dstep d op)))).
    { destruct (finv_len _ _ _ _ I) as [L1 L2]. destruct op; cbn [fstep].
      - destruct (put_ok _ _ _ _ v I) as (f' & p & fr' & -> & I' & L'). cbn [bind dstep fst snd]. exists f', (l ++ [p]), fr'.
        split; [reflexivity|]. split; [assumption|]. rewrite L', app_length. cbn [length]. lia.
      - destruct (push_front_ok _ _ _ _ v I) as (f' & p & fr' & -> & I' & L'). cbn [bind dstep fst snd]. exists f', (p :: l), fr'.
        split; [reflexivity|]. split; [assumption|]. rewrite L'. cbn [length]. lia.
      - destruct (get_ok _ _ _ _ I) as (f' & l' & fr' & -> & I' & L'). exists f', l', fr'. split; [reflexivity|]. split; [assumption|].
        destruct (finv_len _ _ _ _ I') as [L3 L4]. lia.
      - rewrite (front_ok _ _ _ _ I). cbn [bind]. exists f, l, fr. split; [reflexivity|]. split; [exact I|]. cbn [dstep fst]. lia.
      - exists f, l, fr. unfold fifo_sz. rewrite (F_size _ _ _ _ I). split; [reflexivity|]. split; [exact I|]. cbn [dstep fst]. lia. }
    destruct St as (f1 & l1 & fr1 & E1 & I1 & L1). destruct (IH _ _ _ _ I1) as (f2 & l2 & fr2 & E2 & I2 & L2).
    cbn [frun drun high_water]. rewrite E1. cbn [bind]. rewrite E2. cbn [bind].
    destruct (dstep d op) as [d1 o] eqn:Ed. cbn [fst snd] in *. destruct (drun d1 t) as [d2 os] eqn:Er. cbn [fst snd] in *.
    exists f2, l2, fr2. split; [reflexivity|]. split; [assumption|].
    rewrite L2, L1. destruct (finv_len _ _ _ _ I). assert (length d1 <= high_water d1 t) by (destruct t; cbn [high_water]; lia). lia.
Qed.

(** ** SingleLinkList *)
Definition snx (m : list slnode) (x : nat) : option (option nat) := option_map sl_next (nth_error m x).
Definition ssz (m : list slnode) (x : nat) : option Z := option_map sl_size (nth_error m x).

Lemma setNext_ok : forall m p x, p < length m -> exists m', setNext m p x = Ok m' /\ length m' = length m /\
  snx m' p = Some x /\ (forall q, q <> p -> snx m' q = snx m q) /\ (forall q, ssz m' q = ssz m q).
Proof.
  intros m p x H. destruct (rd_some _ m p H) as (n & R & E). exists (upd m p (mkSl x (sl_size n))).
  unfold setNext. rewrite R. cbn [bind]. rewrite wr_ok by assumption.
  split; [reflexivity|]. split; [apply upd_length|]. unfold snx, ssz.
  split; [rewrite nth_error_upd_eq by assumption; reflexivity|].
  split; [intros q Q; rewrite nth_error_upd_neq by congruence; reflexivity|].
  intros q. destruct (Nat.eq_dec q p) as [->|N].
  - rewrite nth_error_upd_eq, E by assumption. reflexivity.
  - rewrite nth_error_upd_neq by congruence. reflexivity.
Qed.

Record SInv (m : list slnode) (s : sll) (sz : nat -> Z) (d : list nat) : Prop := {
  S_chain : chain (snx m) (s_head s) d;
  S_nodup : NoDup d;
  S_in : forall p, In p d -> p < length m;
  S_tail : s_tail s = last_opt d;
  S_count : s_count s = (Z.of_nat (length d) mod 2 ^ 32)%Z;
  S_total : s_total s = total sz d;
  S_sz : forall p, p < length m -> ssz m p = Some (sz p)
}.

Lemma zsum_app : forall a b, zsum (a ++ b) = (zsum a + zsum b)%Z.
Proof. induction a as [|x a IH]; intros b; cbn [app zsum]; [lia|]. rewrite IH. lia. Qed.

Lemma rd_sz : forall m p z, ssz m p = Some z -> exists n, rd m p = Ok n /\ sl_size n = z.
Proof. intros m p z H. unfold rd, ssz in *. destruct (nth_error m p) as [n|]; [|discriminate]. cbn in H. injection H as <-. eauto. Qed.

Lemma sstep_refines : forall m s sz d op, SInv m s sz d -> allowed (length m) d op ->
  exists m' s', sstep m s op = Ok (m', s', snd (sdstep sz d op)) /\ SInv m' s' (size_after sz op) (fst (sdstep sz d op)) /\ length m' = length m.
Proof.
  intros m s sz d op I A. destruct op; cbn [sstep allowed sdstep size_after fst snd] in *.
  - (* push_back *)
    destruct A as [Hp Np]. unfold sl_push_back.
    destruct (setNext_ok m p None Hp) as (m1 & E1 & L1 & N1 & N1' & Z1). rewrite E1. cbn [bind]. rewrite (S_tail _ _ _ _ I).
    assert (X : exists m2, (match last_opt d with Some t => setNext m1 t (Some p) | None => Ok m1 end) = Ok m2 /\ length m2 = length m1 /\
       chain (snx m2) (match s_head s with None => Some p | h => h end) (d ++ [p]) /\ (forall q, ssz m2 q = ssz m1 q)).
    { destruct (last_opt d) as [t|] eqn:Lt.
      - destruct (last_opt_split _ _ _ Lt) as (l' & ->).
        assert (Ht : t < length m1). { rewrite L1. apply (S_in _ _ _ _ I). apply in_or_app. right. left. reflexivity. }
        assert (Npt : p <> t). { intros ->. apply Np. apply in_or_app. right. left. reflexivity. }
        destruct (setNext_ok m1 t (Some p) Ht) as (m2 & E2 & L2 & N2 & N2' & Z2). exists m2. split; [assumption|]. split; [assumption|].
        split; [|assumption]. pose proof (S_chain _ _ _ _ I) as C.
        assert (Hh : s_head s <> None). { rewrite (chain_head _ _ _ C). destruct l'; discriminate. }
        rewrite <- app_assoc. cbn [app]. replace (match s_head s with None => Some p | Some n => Some n end) with (s_head s) by (destruct (s_head s); congruence).
        apply (chain_snoc (snx m)); try assumption.
        + apply (S_nodup _ _ _ _ I).
        + intros x H. pose proof (NoDup_remove_2 l' [] t (S_nodup _ _ _ _ I)) as Nt. rewrite app_nil_r in Nt.
          rewrite N2', N1'; [reflexivity| |].
          * intros ->. apply Np. apply in_or_app. left. assumption.
          * intros ->. contradiction.
        + rewrite N2' by assumption. assumption.
      - apply last_opt_none in Lt. subst d. exists m1. split; [reflexivity|]. split; [reflexivity|]. split; [|reflexivity].
        rewrite (chain_head _ _ _ (S_chain _ _ _ _ I)). cbn. split; [reflexivity|]. exists None. auto. }
    destruct X as (m2 & E2 & L2 & C2 & Z2). rewrite E2. cbn [bind].
    destruct (rd_sz m2 p (sz p)) as (n & Rn & Sn). { rewrite Z2, Z1. apply (S_sz _ _ _ _ I). assumption. }
    rewrite Rn. cbn [bind]. eexists _, _. split; [reflexivity|]. split; [|lia].
    constructor; cbn [s_head s_tail s_count s_total].
    + assumption.
    + apply nodup_snoc; [apply (S_nodup _ _ _ _ I)|assumption].
    + intros q Q. apply in_app_or in Q. destruct Q as [Q|[<-|[]]]; [|lia]. pose proof (S_in _ _ _ _ I q Q). lia.
    + symmetry. apply last_opt_snoc.
    + rewrite (S_count _ _ _ _ I), app_length. cbn [length]. rewrite Nat.add_1_r. apply mod_step.
    + rewrite (S_total _ _ _ _ I), Sn. unfold total, u32. rewrite map_app, zsum_app. cbn [map zsum]. rewrite Zplus_mod_idemp_l. f_equal. lia.
    + intros q Q. rewrite Z2, Z1. apply (S_sz _ _ _ _ I). lia.
  - (* push_front *)
    destruct A as [Hp Np]. unfold sl_push_front.
    destruct (setNext_ok m p (s_head s) Hp) as (m1 & E1 & L1 & N1 & N1' & Z1). rewrite E1. cbn [bind].
    destruct (rd_sz m1 p (sz p)) as (n & Rn & Sn). { rewrite Z1. apply (S_sz _ _ _ _ I). assumption. }
    rewrite Rn. cbn [bind]. eexists _, _. split; [reflexivity|]. split; [|lia].
    constructor; cbn [s_head s_tail s_count s_total].
    + split; [reflexivity|]. exists (s_head s). split; [assumption|]. eapply chain_ext; [|apply (S_chain _ _ _ _ I)].
      intros x H. apply N1'. intros ->. contradiction.
    + constructor; [assumption|apply (S_nodup _ _ _ _ I)].
    + intros q [<-|Q]; [lia|]. pose proof (S_in _ _ _ _ I q Q). lia.
    + rewrite last_opt_cons, (S_tail _ _ _ _ I). reflexivity.
    + rewrite (S_count _ _ _ _ I). cbn [length]. apply mod_step.
    + rewrite (S_total _ _ _ _ I), Sn. unfold total, u32. cbn [map zsum]. rewrite Zplus_mod_idemp_l. f_equal. lia.
    + intros q Q. rewrite Z1. apply (S_sz _ _ _ _ I). lia.
  - (* pop_front *)
    unfold sl_pop_front. destruct d as [|r d].
    + rewrite (chain_head _ _ _ (S_chain _ _ _ _ I)). cbn [hd_error bind fst snd]. exists m, s. repeat split; try reflexivity; apply I.
    + pose proof (S_chain _ _ _ _ I) as C. destruct C as (-> & nx & N & C).
      assert (Hr : r < length m) by (apply (S_in _ _ _ _ I); left; reflexivity).
      destruct (rd_some _ _ _ Hr) as (n & R & E). rewrite R. cbn [bind]. unfold snx in N. rewrite E in N. injection N as <-.
      pose proof (S_nodup _ _ _ _ I) as ND. apply NoDup_cons_iff in ND. destruct ND as [Nr ND].
      assert (Sz : sl_size n = sz r). { pose proof (S_sz _ _ _ _ I r Hr) as Z. unfold ssz in Z. rewrite E in Z. cbn in Z. congruence. }
      assert (T : (do tail <- (if match s_tail s with Some t => Nat.eqb t r | None => false end
                  then do _ <- assert_ (match sl_next n with None => true | Some _ => false end); Ok None
                  else Ok (s_tail s)); Ok tail) = Ok (last_opt d)).
      { rewrite (S_tail _ _ _ _ I), last_opt_cons, (chain_head _ _ _ C). destruct (last_opt d) as [t|] eqn:Lt.
        - destruct (Nat.eqb_spec t r) as [->|]; [|reflexivity]. destruct (last_opt_split _ _ _ Lt) as (l' & ->).
          exfalso. apply Nr. apply in_or_app. right. left. reflexivity.
        - apply last_opt_none in Lt. subst d. rewrite Nat.eqb_refl. reflexivity. }
      destruct (if match s_tail s with Some t => Nat.eqb t r | None => false end
                  then do _ <- assert_ (match sl_next n with None => true | Some _ => false end); Ok None
                  else Ok (s_tail s)) as [tl| | |]; try discriminate. cbn [bind] in *. injection T as ->.
      destruct (setNext_ok m r None Hr) as (m1 & E1 & L1 & N1 & N1' & Z1). rewrite E1. cbn [bind fst snd].
      eexists _, _. split; [reflexivity|]. split; [|assumption]. constructor; cbn [s_head s_tail s_count s_total].
      * eapply chain_ext; [|exact C]. intros x H. apply N1'. intros ->. contradiction.
      * assumption.
      * intros q Q. rewrite L1. apply (S_in _ _ _ _ I). right. assumption.
      * reflexivity.
      * rewrite (S_count _ _ _ _ I). cbn [length]. apply mod_step_back.
      * rewrite (S_total _ _ _ _ I), Sz. unfold total, u32. cbn [map zsum]. rewrite Zminus_mod_idemp_l. f_equal. lia.
      * intros q Q. rewrite Z1. apply (S_sz _ _ _ _ I). lia.
  - exists m, s. rewrite (chain_head _ _ _ (S_chain _ _ _ _ I)). repeat split; apply I.
  - exists m, s. rewrite (S_tail _ _ _ _ I). repeat split; apply I.
  - exists m, s. rewrite (S_count _ _ _ _ I). repeat split; apply I.
  - exists m, s. rewrite (S_total _ _ _ _ I). repeat split; apply I.
  - destruct A as [Hp Np]. unfold set_size. destruct (rd_some _ _ _ Hp) as (n & R & E). rewrite R. cbn [bind].
    rewrite wr_ok by assumption. cbn [bind]. eexists _, _. split; [reflexivity|]. split; [|apply upd_length].
    assert (K : forall x, snx (upd m p (mkSl (sl_next n) z)) x = snx m x).
    { intros x. unfold snx. destruct (Nat.eq_dec x p) as [->|Nx]; [rewrite nth_error_upd_eq, E by assumption; reflexivity|].
      rewrite nth_error_upd_neq by congruence. reflexivity. }
    constructor; try apply I.
    + eapply chain_ext; [|apply (S_chain _ _ _ _ I)]. intros; apply K.
    + intros q Q. rewrite upd_length. apply (S_in _ _ _ _ I). assumption.
    + rewrite (S_total _ _ _ _ I). unfold total. do 2 f_equal. apply map_ext_in. intros q Q. destruct (Nat.eqb_spec q p) as [->|]; [contradiction|reflexivity].
    + intros q Q. rewrite upd_length in Q. unfold ssz. destruct (Nat.eqb_spec q p) as [->|Nx].
      * rewrite nth_error_upd_eq by assumption. reflexivity.
      * rewrite nth_error_upd_neq by congruence. apply (S_sz _ _ _ _ I). assumption.
Qed.

Lemma sdstep_list : forall sz sz' d op, fst (sdstep sz d op) = fst (sdstep sz' d op).
Proof. intros sz sz' d []; try reflexivity. Qed.

Lemma srun_refines : forall ops m s sz d, SInv m s sz d -> allowed_run (length m) d ops ->
  exists m' s', srun m s ops = Ok (m', s', snd (sdrun sz d ops)).
Proof.
  induction ops as [|op t IH]; intros m s sz d I A; [cbn; eauto|]. cbn [allowed_run] in A. destruct A as [A1 A2].
  destruct (sstep_refines _ _ _ _ _ I A1) as (m1 & s1 & E1 & I1 & L1).
  rewrite (sdstep_list _ sz) in A2. rewrite <- L1 in A2. destruct (IH _ _ _ _ I1 A2) as (m2 & s2 & E2).
  cbn [srun sdrun]. rewrite E1. cbn [bind]. rewrite E2. cbn [bind].
  destruct (sdstep sz d op) as [d1 o]. cbn [fst snd] in *. destruct (sdrun (size_after sz op) d1 t) as [d2 os]. cbn [snd]. eauto.
Qed.
