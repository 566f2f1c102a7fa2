(** Reference counts: the count of a live object is the number of pointers to it. *)
From Verif Require Import Base BaseFacts RefCntModel.
Local Open Scope Z_scope.

Definition mem (i : nat) (l : list nat) : bool := existsb (Nat.eqb i) l.
Lemma mem_iff i l : mem i l = true <-> In i l.
Proof.
  unfold mem. rewrite existsb_exists. split.
  - intros (x & H & E). apply Nat.eqb_eq in E. subst. exact H.
  - intros H. exists i. split; [exact H|apply Nat.eqb_refl].
Qed.

Definition points (x : slot) (o : nat) : bool :=
  constructed x && match rcPointer x with Some p => (p =? o)%nat | None => false end.
(** [busy]: slots whose count has been given back already. *)
Definition counted (s : heap) (busy : list nat) (o i : nat) : bool := negb (mem i busy) && points (slots s i) o.
Definition refs (s : heap) (busy : list nat) (o : nat) : Z :=
  Z.of_nat (length (filter (counted s busy o) (seq 0 (nslots s)))).

Definition bz (b : bool) : Z := if b then 1 else 0.
Lemma filter_change (P Q : nat -> bool) i n : (i < n)%nat -> (forall j, j <> i -> P j = Q j) ->
  Z.of_nat (length (filter P (seq 0 n))) + bz (Q i) = Z.of_nat (length (filter Q (seq 0 n))) + bz (P i).
Proof.
  intros H E. assert (G : forall l, NoDup l -> (In i l -> Z.of_nat (length (filter P l)) + bz (Q i) = Z.of_nat (length (filter Q l)) + bz (P i)) /\
    (~ In i l -> length (filter P l) = length (filter Q l))).
  { induction l as [|x l IH]; intros N; [split; [intros []|reflexivity]|]. inversion N as [|? ? N1 N2]; subst.
    destruct (IH N2) as [I1 I2]. destruct (Nat.eq_dec x i) as [->|D].
    - split; [|intros K; destruct K; left; reflexivity]. intros _. specialize (I2 N1). cbn [filter].
      destruct (P i), (Q i); cbn [length bz]; lia.
    - cbn [filter]. rewrite (E x D). split.
      + intros [K|K]; [congruence|]. specialize (I1 K). destruct (Q x); cbn [length]; lia.
      + intros K. assert (~ In i l) as K' by (intros L; apply K; right; exact L). specialize (I2 K'). destruct (Q x); cbn [length]; lia. }
  apply (G (seq 0 n) (seq_NoDup n 0)). apply in_seq. lia.
Qed.
Lemma filter_same (P Q : nat -> bool) l : (forall j, P j = Q j) -> filter P l = filter Q l.
Proof. intros E. induction l as [|x l IH]; [reflexivity|]. cbn [filter]. rewrite E, IH. reflexivity. Qed.

Lemma refs_change s s' busy busy' o i : (i < nslots s)%nat -> nslots s' = nslots s ->
  (forall j, j <> i -> counted s' busy' o j = counted s busy o j) ->
  refs s' busy' o + bz (counted s busy o i) = refs s busy o + bz (counted s' busy' o i).
Proof. intros H N E. unfold refs. rewrite N. apply filter_change; assumption. Qed.
Lemma refs_same s s' busy busy' o : nslots s' = nslots s -> (forall j, counted s' busy' o j = counted s busy o j) ->
  refs s' busy' o = refs s busy o.
Proof. intros N E. unfold refs. rewrite N, (filter_same _ _ _ E). reflexivity. Qed.
Lemma refs_nonneg s busy o : 0 <= refs s busy o.
Proof. unfold refs. lia. Qed.
Lemma refs_pos s busy o i : (i < nslots s)%nat -> counted s busy o i = true -> 1 <= refs s busy o.
Proof.
  intros H C. unfold refs. assert (In i (filter (counted s busy o) (seq 0 (nslots s)))) as K.
  { apply filter_In. split; [apply in_seq; lia|exact C]. }
  destruct (filter (counted s busy o) (seq 0 (nslots s))); [destruct K|cbn [length]; lia].
Qed.

Definition alive (x : ostate) : Prop := match x with Alive _ => True | _ => False end.
(** Object [a] cannot die: a pointer variable of the program refers to it. *)
Definition safe (s : heap) (busy : list nat) (a : nat) : Prop :=
  exists k, ~ In k busy /\ owner (slots s k) = None /\ points (slots s k) a = true.

Record WF (s : heap) (busy : list nat) (e : nat -> Z) : Prop := mkWF {
  wf_cnt : forall o c, objs s o = Alive c -> c = refs s busy o + e o /\ c <= 32767;
  wf_dead : forall o, ~ alive (objs s o) -> refs s busy o = 0 /\ e o = 0;
  wf_e : forall o, 0 <= e o;
  wf_member : forall i a, owner (slots s i) = Some a -> alive (objs s a) -> constructed (slots s i) = true;
  wf_owner : forall i a, owner (slots s i) = Some a -> (a < nobjs s)%nat;
  wf_slots : forall i, (nslots s <= i)%nat -> slots s i = Slot None false None;
  wf_objs : forall o, objs s o = Absent <-> (nobjs s <= o)%nat;
  wf_busy : forall i, In i busy -> constructed (slots s i) = true /\
            forall a, owner (slots s i) = Some a -> alive (objs s a) -> safe s busy a;
  wf_nodup : NoDup (deleted s);
  wf_deleted : forall o, In o (deleted s) <-> objs s o = Dead
}.

Lemma wf_ext s busy e e' : (forall o, e o = e' o) -> WF s busy e -> WF s busy e'.
Proof.
  intros E [H1 H2 H3 H4 H5 H6 H7 H8 H9 H10]. constructor; auto; intros o; rewrite <- E; auto.
Qed.
Definition add (e : nat -> Z) (o : nat) (d : Z) : nat -> Z := fun x => e x + (if (x =? o)%nat then d else 0).

Lemma wf_range s busy e i : WF s busy e -> constructed (slots s i) = true -> (i < nslots s)%nat.
Proof.
  intros W C. destruct (Nat.lt_ge_cases i (nslots s)) as [L|L]; [exact L|]. rewrite (wf_slots _ _ _ W i L) in C. discriminate.
Qed.

(** What a decrement may change. *)
Record F (l : list nat) (s s' : heap) : Prop := mkF {
  f_nobjs : nobjs s' = nobjs s;
  f_nslots : nslots s' = nslots s;
  f_owner : forall i, owner (slots s' i) = owner (slots s i);
  f_slot : forall i, ~ In i l -> slots s' i <> slots s i ->
           exists a, owner (slots s i) = Some a /\ alive (objs s a) /\ objs s' a = Dead;
  f_gone : forall o, ~ alive (objs s o) -> objs s' o = objs s o;
  f_alive : forall o c, objs s o = Alive c -> objs s' o = Dead \/ exists c', objs s' o = Alive c' /\ c' <= c /\ (c' = c \/ 1 <= c');
  f_zero : forall o, objs s o = Alive 0 -> objs s' o = Alive 0
}.

Lemma F_refl l s : F l s s.
Proof. constructor; auto; [intros; congruence|]. intros o c H. right. exists c. repeat split; [exact H|lia|auto]. Qed.
Lemma slot_dec (x y : slot) : {x = y} + {x <> y}.
Proof.
  assert (D : forall p q : option nat, {p = q} + {p <> q}) by (decide equality; apply Nat.eq_dec).
  destruct x as [o1 c1 p1], y as [o2 c2 p2].
  destruct (D o1 o2) as [->|N]; [|right; congruence].
  destruct (bool_dec c1 c2) as [->|N]; [|right; congruence].
  destruct (D p1 p2) as [->|N]; [left; reflexivity|right; congruence].
Qed.
Lemma F_trans l m n s1 s2 s3 : (forall i, In i l \/ In i m -> In i n) -> F l s1 s2 -> F m s2 s3 -> F n s1 s3.
Proof.
  intros I A B. constructor.
  - rewrite (f_nobjs _ _ _ B). apply A.
  - rewrite (f_nslots _ _ _ B). apply A.
  - intros i. rewrite (f_owner _ _ _ B). apply A.
  - intros i Hi Hc. destruct (slot_dec (slots s2 i) (slots s1 i)) as [E|N].
    + destruct (f_slot _ _ _ B i) as (a & H1 & H2 & H3); [intros K; apply Hi, I; auto|congruence|].
      exists a. rewrite <- (f_owner _ _ _ A). split; [exact H1|]. split; [|exact H3].
      destruct (objs s1 a) eqn:Ea; try exact Logic.I; exfalso; assert (K : ~ alive (objs s1 a)) by (rewrite Ea; auto);
        apply (f_gone _ _ _ A) in K; rewrite K, Ea in H2; exact H2.
    + destruct (f_slot _ _ _ A i) as (a & H1 & H2 & H3); [intros K; apply Hi, I; auto|congruence|].
      exists a. repeat split; [exact H1|exact H2|]. rewrite (f_gone _ _ _ B); [exact H3|rewrite H3; auto].
  - intros o H. rewrite (f_gone _ _ _ B); [apply A, H|]. rewrite (f_gone _ _ _ A) by exact H. exact H.
  - intros o c H. destruct (f_alive _ _ _ A o c H) as [D|(c2 & H2 & L2 & Z2)].
    + left. rewrite (f_gone _ _ _ B); [exact D|rewrite D; auto].
    + destruct (f_alive _ _ _ B o c2 H2) as [D|(c3 & H3 & L3 & Z3)]; [left; exact D|]. right. exists c3.
      repeat split; [exact H3|lia|lia].
  - intros o H. apply B, A, H.
Qed.

Definition isalive (x : ostate) : bool := match x with Alive _ => true | _ => false end.
Definition nalive (s : heap) : nat := length (filter (fun o => isalive (objs s o)) (seq 0 (nobjs s))).

Lemma filter_le (P Q : nat -> bool) l : (forall x, P x = true -> Q x = true) -> (length (filter P l) <= length (filter Q l))%nat.
Proof.
  intros H. induction l as [|x l IH]; [cbn; lia|]. cbn [filter]. specialize (H x). destruct (P x), (Q x); cbn [length]; try lia.
Qed.
Lemma F_nalive l s s' : F l s s' -> (nalive s' <= nalive s)%nat.
Proof.
  intros A. unfold nalive. rewrite (f_nobjs _ _ _ A). apply filter_le. intros o H.
  destruct (objs s o) eqn:E; try reflexivity; exfalso; rewrite (f_gone _ _ _ A) in H; rewrite E in *; try discriminate; auto.
Qed.

Lemma set_eq {A} (f : nat -> A) i x : set f i x i = x.
Proof. unfold set. rewrite Nat.eqb_refl. reflexivity. Qed.
Lemma set_neq {A} (f : nat -> A) i x j : j <> i -> set f i x j = f j.
Proof. intros H. unfold set. apply Nat.eqb_neq in H. rewrite H. reflexivity. Qed.

Lemma add_eq e o d : add e o d o = e o + d.
Proof. unfold add. rewrite Nat.eqb_refl. reflexivity. Qed.
Lemma add_neq e o d x : x <> o -> add e o d x = e x.
Proof. intros H. unfold add. apply Nat.eqb_neq in H. rewrite H. lia. Qed.

(** ** Primitive changes *)
(** The count of a live object. *)
Lemma wf_set_cnt s busy e o c c' : WF s busy e -> objs s o = Alive c -> 0 <= e o + (c' - c) -> c' <= 32767 ->
  WF (set_obj s o (Alive c')) busy (add e o (c' - c)).
Proof.
  intros W H He Hm. assert (A : forall a, alive (objs (set_obj s o (Alive c')) a) <-> alive (objs s a)).
  { intros a. cbn. destruct (Nat.eq_dec a o) as [->|N]; [rewrite set_eq, H; cbn; tauto|rewrite set_neq by exact N; tauto]. }
  constructor.
  - intros a k. cbn. destruct (Nat.eq_dec a o) as [->|N].
    + rewrite set_eq, add_eq. intros E. injection E as <-. destruct (wf_cnt _ _ _ W o c H) as [E _].
      change (refs (set_obj s o (Alive c')) busy o) with (refs s busy o). lia.
    + rewrite set_neq, add_neq by exact N. exact (wf_cnt _ _ _ W a k).
  - intros a K. rewrite A in K. destruct (wf_dead _ _ _ W a K) as [K1 K2]. split; [exact K1|].
    rewrite add_neq; [exact K2|]. intros ->. apply K. rewrite H. exact I.
  - intros a. destruct (Nat.eq_dec a o) as [->|N]; [rewrite add_eq; exact He|rewrite add_neq by exact N; apply W].
  - intros i a Ho Ha. apply (wf_member _ _ _ W i a Ho). apply A, Ha.
  - exact (wf_owner _ _ _ W).
  - exact (wf_slots _ _ _ W).
  - intros a. cbn. destruct (Nat.eq_dec a o) as [->|N]; [rewrite set_eq|rewrite set_neq by exact N; apply W].
    rewrite <- (wf_objs _ _ _ W o), H. split; discriminate.
  - intros i Hi. destruct (wf_busy _ _ _ W i Hi) as [B1 B2]. split; [exact B1|]. intros a Ho Ha. apply B2; [exact Ho|apply A, Ha].
  - exact (wf_nodup _ _ _ W).
  - intros a. cbn. rewrite (wf_deleted _ _ _ W a). destruct (Nat.eq_dec a o) as [->|N]; [rewrite set_eq, H; split; discriminate|rewrite set_neq by exact N; reflexivity].
Qed.

(** A slot whose count is given back. *)
Lemma wf_busy_in s busy e i t : WF s busy e -> constructed (slots s i) = true -> rcPointer (slots s i) = Some t -> ~ In i busy ->
  (forall j a, j = i \/ In j busy -> owner (slots s j) = Some a -> alive (objs s a) -> safe s (i :: busy) a) ->
  WF s (i :: busy) (add e t 1).
Proof.
  intros W C P N S. pose proof (wf_range _ _ _ _ W C) as L.
  assert (M : mem i busy = false) by (apply not_true_iff_false; rewrite mem_iff; exact N).
  assert (R : forall o, refs s (i :: busy) o + (if (o =? t)%nat then 1 else 0) = refs s busy o).
  { intros o. pose proof (refs_change s s busy (i :: busy) o i L eq_refl) as E.
    assert (forall j, j <> i -> counted s (i :: busy) o j = counted s busy o j) as K.
    { intros j Hj. unfold counted, mem. cbn [existsb]. replace (j =? i)%nat with false by (symmetry; apply Nat.eqb_neq, Hj). reflexivity. }
    specialize (E K). unfold counted at 1 in E. rewrite M in E. unfold points in E. rewrite C, P in E. cbn [negb andb] in E.
    replace (counted s (i :: busy) o i) with false in E; [|unfold counted, mem; cbn [existsb]; rewrite Nat.eqb_refl; reflexivity].
    rewrite (Nat.eqb_sym t o) in E. destruct (o =? t)%nat; cbn [bz] in E; lia. }
  constructor.
  - intros o c H. destruct (wf_cnt _ _ _ W o c H) as [E B]. split; [|exact B]. rewrite E. unfold add. specialize (R o). lia.
  - intros o H. destruct (wf_dead _ _ _ W o H) as [E1 E2]. specialize (R o). pose proof (refs_nonneg s (i :: busy) o) as P0.
    unfold add. destruct (o =? t)%nat; lia.
  - intros o. unfold add. pose proof (wf_e _ _ _ W o). destruct (o =? t)%nat; lia.
  - exact (wf_member _ _ _ W).
  - exact (wf_owner _ _ _ W).
  - exact (wf_slots _ _ _ W).
  - exact (wf_objs _ _ _ W).
  - intros j [<-|Hj]; [split; [exact C|intros a; apply S; auto]|]. split; [apply (wf_busy _ _ _ W j Hj)|].
    intros a Ho Ha. apply (S j a); auto.
  - exact (wf_nodup _ _ _ W).
  - exact (wf_deleted _ _ _ W).
Qed.

(** A busy slot is written and counts again: what it points to must be paid for. *)
Lemma wf_busy_out s busy e i x : WF s (i :: busy) e -> ~ In i busy -> owner x = owner (slots s i) ->
  (forall a, owner x = Some a -> alive (objs s a) -> constructed x = true) ->
  (forall o, points x o = true -> 1 <= e o) ->
  WF (set_slot s i x) busy (fun o => e o - bz (points x o)).
Proof.
  intros W N O C P. pose proof (wf_busy _ _ _ W i (or_introl eq_refl)) as [Ci Si].
  pose proof (wf_range _ _ _ _ W Ci) as L.
  assert (M : mem i busy = false) by (apply not_true_iff_false; rewrite mem_iff; exact N).
  assert (R : forall o, refs (set_slot s i x) busy o = refs s (i :: busy) o + bz (points x o)).
  { intros o. pose proof (refs_change s (set_slot s i x) (i :: busy) busy o i L eq_refl) as E.
    assert (forall j, j <> i -> counted (set_slot s i x) busy o j = counted s (i :: busy) o j) as K.
    { intros j Hj. unfold counted, mem. cbn. rewrite set_neq by exact Hj. replace (j =? i)%nat with false by (symmetry; apply Nat.eqb_neq, Hj). reflexivity. }
    specialize (E K). replace (counted s (i :: busy) o i) with false in E; [|unfold counted, mem; cbn [existsb]; rewrite Nat.eqb_refl; reflexivity].
    replace (counted (set_slot s i x) busy o i) with (points x o) in E; [cbn [bz] in E; lia|].
    unfold counted. rewrite M. cbn. rewrite set_eq. reflexivity. }
  assert (SF : forall a, safe s (i :: busy) a -> safe (set_slot s i x) busy a).
  { intros a (k & K1 & K2 & K3). assert (k <> i) as Hk by (intros ->; apply K1; left; reflexivity).
    exists k. split; [intros K; apply K1; right; exact K|]. cbn. rewrite set_neq by exact Hk. split; assumption. }
  constructor.
  - intros o c H. destruct (wf_cnt _ _ _ W o c H) as [E B]. rewrite R. split; [lia|exact B].
  - intros o H. destruct (wf_dead _ _ _ W o H) as [E1 E2]. rewrite R. destruct (points x o) eqn:Px; [apply P in Px; lia|]. cbn [bz]. lia.
  - intros o. pose proof (wf_e _ _ _ W o). destruct (points x o) eqn:Px; [apply P in Px|]; cbn [bz]; lia.
  - intros j a. cbn. destruct (Nat.eq_dec j i) as [->|D]; [rewrite set_eq; apply C|rewrite set_neq by exact D; apply W].
  - intros j a. cbn. destruct (Nat.eq_dec j i) as [->|D]; [rewrite set_eq, O|rewrite set_neq by exact D]; apply W.
  - intros j Hj. cbn in *. rewrite set_neq by lia. apply W, Hj.
  - exact (wf_objs _ _ _ W).
  - intros j Hj. cbn. assert (j <> i) by congruence. rewrite set_neq by assumption.
    destruct (wf_busy _ _ _ W j (or_intror Hj)) as [B1 B2]. split; [exact B1|]. intros a Ho Ha. apply SF, B2; assumption.
  - exact (wf_nodup _ _ _ W).
  - exact (wf_deleted _ _ _ W).
Qed.

(** The death of an object nobody points to. *)
Lemma wf_kill s busy e o : WF s busy e -> objs s o = Alive 1 -> 1 <= e o ->
  WF (kill (set_obj s o (Alive 0)) o) busy (add e o (-1)) /\
  (forall i, In i (members s o) -> constructed (slots s i) = true /\ owner (slots s i) = Some o /\ ~ In i busy).
Proof.
  intros W H He. destruct (wf_cnt _ _ _ W o 1 H) as [E _]. pose proof (refs_nonneg s busy o) as P0.
  assert (R0 : refs s busy o = 0) by lia. assert (E1 : e o = 1) by lia.
  assert (A : forall a, alive (objs (kill (set_obj s o (Alive 0)) o) a) <-> alive (objs s a) /\ a <> o).
  { intros a. cbn. destruct (Nat.eq_dec a o) as [->|N]; [rewrite set_eq; cbn; tauto|rewrite !set_neq by exact N; tauto]. }
  split.
  - constructor.
    + intros a c. cbn. destruct (Nat.eq_dec a o) as [->|N]; [rewrite set_eq; discriminate|].
      rewrite !set_neq, add_neq by exact N. exact (wf_cnt _ _ _ W a c).
    + intros a K. change (refs (kill (set_obj s o (Alive 0)) o) busy a) with (refs s busy a).
      destruct (Nat.eq_dec a o) as [->|N]; [rewrite add_eq; lia|]. rewrite add_neq by exact N. apply W.
      intros L. apply K, A. auto.
    + intros a. destruct (Nat.eq_dec a o) as [->|N]; [rewrite add_eq; lia|rewrite add_neq by exact N; apply W].
    + intros i a Ho Ha. apply A in Ha. apply (wf_member _ _ _ W i a); tauto.
    + exact (wf_owner _ _ _ W).
    + exact (wf_slots _ _ _ W).
    + intros a. cbn. destruct (Nat.eq_dec a o) as [->|N]; [rewrite set_eq|rewrite !set_neq by exact N; apply W].
      rewrite <- (wf_objs _ _ _ W o), H. split; discriminate.
    + intros i Hi. destruct (wf_busy _ _ _ W i Hi) as [B1 B2]. split; [exact B1|]. intros a Ho Ha. apply A in Ha. apply B2; tauto.
    + cbn. constructor; [|apply W]. rewrite (wf_deleted _ _ _ W o), H. discriminate.
    + intros a. cbn. rewrite (wf_deleted _ _ _ W a). destruct (Nat.eq_dec a o) as [->|N]; [rewrite set_eq; tauto|].
      rewrite !set_neq by exact N. split; [intros [K|K]; [congruence|exact K]|auto].
  - intros i Hi. unfold members in Hi. apply in_rev, filter_In in Hi. destruct Hi as [_ Hi].
    destruct (owner (slots s i)) as [p|] eqn:Eo; [|discriminate]. apply Nat.eqb_eq in Hi. subst p.
    split; [apply (wf_member _ _ _ W i o Eo); rewrite H; exact I|]. split; [reflexivity|].
    intros K. destruct (wf_busy _ _ _ W i K) as [_ B]. destruct (B o Eo) as (k & K1 & K2 & K3); [rewrite H; exact I|].
    assert (1 <= refs s busy o); [|lia]. apply (refs_pos s busy o k).
    + apply (wf_range _ _ _ _ W). unfold points in K3. apply andb_true_iff in K3. apply K3.
    + unfold counted. rewrite K3, andb_true_r. apply negb_true_iff, not_true_iff_false. rewrite mem_iff. exact K1.
Qed.

(** ** Decrementing *)
Definition dec_good (dec : heap -> nat -> res (heap * Z)) (n : nat) : Prop :=
  forall s busy e o, WF s busy e -> 1 <= e o -> (nalive s < n)%nat -> exists s' k,
    dec s o = Ok (s', k) /\ WF s' busy (add e o (-1)) /\ F [] s s' /\ (k <= 0 <-> objs s' o = Dead).

(** Giving a slot's count back, for a slot whose owner is gone, the program, or safe. *)
Definition may_release (s : heap) (busy : list nat) (i : nat) : Prop :=
  forall j a, j = i \/ In j busy -> owner (slots s j) = Some a -> alive (objs s a) -> safe s (i :: busy) a.

Lemma release dec n s busy e i : dec_good dec n -> WF s busy e -> (nalive s < n)%nat ->
  constructed (slots s i) = true -> ~ In i busy -> may_release s busy i ->
  exists s', rcDec dec s i = Ok s' /\ F [i] s s' /\ constructed (slots s' i) = true /\
    (forall x, owner x = owner (slots s i) ->
       (forall a, owner x = Some a -> alive (objs s' a) -> constructed x = true) ->
       (forall o, points x o = true -> 1 <= e o) -> WF (set_slot s' i x) busy (fun o => e o - bz (points x o))).
Proof.
  intros G W L C N S. unfold rcDec, get_slot. rewrite C. cbn [bind].
  destruct (rcPointer (slots s i)) as [t|] eqn:P.
  - pose proof (wf_busy_in s busy e i t W C P N S) as W1.
    destruct (G s (i :: busy) (add e t 1) t W1) as (s1 & k & D & W2 & F1 & K); [rewrite add_eq; pose proof (wf_e _ _ _ W t); lia|exact L|].
    rewrite D. cbn [bind].
    assert (U : slots s1 i = slots s i).
    { destruct (slot_dec (slots s1 i) (slots s i)) as [E|E]; [exact E|].
      destruct (f_slot _ _ _ F1 i ltac:(auto) E) as (a & H1 & H2 & H3).
      destruct (S i a (or_introl eq_refl) H1 H2) as (k' & K1 & K2 & K3). exfalso.
      (* the safe pointer still counts *)
      assert (slots s1 k' = slots s k') as U.
      { destruct (slot_dec (slots s1 k') (slots s k')) as [E'|E']; [exact E'|].
        destruct (f_slot _ _ _ F1 k' ltac:(auto) E') as (b & B1 & _). congruence. }
      assert (1 <= refs s1 (i :: busy) a).
      { apply (refs_pos s1 _ a k').
        - apply (wf_range _ _ _ _ W2). rewrite U. unfold points in K3. apply andb_true_iff in K3. apply K3.
        - unfold counted. rewrite U, K3, andb_true_r. apply negb_true_iff, not_true_iff_false. rewrite mem_iff. exact K1. }
      destruct (wf_dead _ _ _ W2 a) as [Z0 _]; [rewrite H3; auto|lia]. }
    assert (W3 : WF s1 (i :: busy) e).
    { eapply wf_ext; [|exact W2]. intros o. unfold add. destruct (o =? t)%nat; lia. }
    assert (FIN : forall x, owner x = owner (slots s i) ->
       (forall a, owner x = Some a -> alive (objs s1 a) -> constructed x = true) ->
       (forall o, points x o = true -> 1 <= e o) -> WF (set_slot s1 i x) busy (fun o => e o - bz (points x o))).
    { intros x O Cx Px. apply wf_busy_out; [exact W3|exact N|rewrite U; exact O|exact Cx|exact Px]. }
    destruct (k <=? 0) eqn:Ek.
    + rewrite U, C. cbn [bind]. eexists. split; [reflexivity|]. split; [|split].
      * constructor; try apply F1; cbn.
        -- intros j. destruct (Nat.eq_dec j i) as [->|D']; [rewrite set_eq; reflexivity|rewrite set_neq by exact D'; apply F1].
        -- intros j Hj. rewrite set_neq; [apply F1; auto|]. intros ->. apply Hj. left. reflexivity.
      * cbn. rewrite set_eq. reflexivity.
      * intros x O Cx Px. specialize (FIN x O Cx Px).
        assert (X : forall j, slots (set_slot (set_slot s1 i (Slot (owner (slots s i)) true None)) i x) j = slots (set_slot s1 i x) j).
        { intros j. cbn. unfold set. destruct (j =? i)%nat; reflexivity. }
        assert (RX : forall o, refs (set_slot (set_slot s1 i (Slot (owner (slots s i)) true None)) i x) busy o = refs (set_slot s1 i x) busy o).
        { intros o. apply refs_same; [reflexivity|]. intros j. unfold counted. rewrite X. reflexivity. }
        destruct FIN as [I1 I2 I3 I4 I5 I6 I7 I8 I9 I10]. constructor; auto.
        -- intros o c Ho. rewrite RX. apply (I1 o c Ho).
        -- intros o Ho. rewrite RX. apply (I2 o Ho).
        -- intros j a. rewrite X. apply I4.
        -- intros j a. rewrite X. apply I5.
        -- intros j Hj. rewrite X. apply I6, Hj.
        -- intros j Hj. rewrite X. destruct (I8 j Hj) as [B1 B2]. split; [exact B1|]. intros a Ho Ha.
           destruct (B2 a Ho Ha) as (k' & K1 & K2 & K3). exists k'. rewrite X. auto.
    + exists s1. split; [reflexivity|]. split; [|split; [rewrite U; exact C|exact FIN]].
      constructor; try apply F1. intros j Hj. apply F1. auto.
  - exists s. split; [reflexivity|]. split; [apply F_refl|]. split; [exact C|].
    intros x O Cx Px.
    assert (W1 : WF s (i :: busy) e).
    { destruct W as [I1 I2 I3 I4 I5 I6 I7 I8 I9 I10].
      assert (RX : forall o, refs s (i :: busy) o = refs s busy o).
      { intros o. apply refs_same; [reflexivity|]. intros j. unfold counted, mem. cbn [existsb]. destruct (Nat.eqb_spec j i) as [->|]; [|reflexivity].
        unfold points. rewrite P, andb_false_r. cbn. rewrite andb_false_r. reflexivity. }
      constructor; auto.
      - intros o c Ho. rewrite RX. apply (I1 o c Ho).
      - intros o Ho. rewrite RX. apply (I2 o Ho).
      - intros j [<-|Hj]; [split; [exact C|]; intros a Ho Ha; apply (S i a); auto|].
        split; [apply (I8 j Hj)|]. intros a Ho Ha. apply (S j a); auto. }
    apply wf_busy_out; auto.
Qed.

Lemma destroy_good dec n s busy e i : dec_good dec n -> WF s busy e -> (nalive s < n)%nat ->
  constructed (slots s i) = true -> ~ In i busy -> may_release s busy i ->
  (forall a, owner (slots s i) = Some a -> ~ alive (objs s a)) ->
  exists s', destroy dec s i = Ok s' /\ WF s' busy e /\ F [i] s s' /\ constructed (slots s' i) = false.
Proof.
  intros G W L C N S O. destruct (release dec n s busy e i G W L C N S) as (s1 & D & F1 & C1 & FIN).
  unfold destroy. rewrite D. cbn [bind]. unfold get_slot. rewrite C1. cbn [bind]. eexists. split; [reflexivity|].
  rewrite (f_owner _ _ _ F1). split; [|split].
  - eapply wf_ext; [|apply FIN]; cbn.
    + intros o. unfold points. cbn. lia.
    + reflexivity.
    + intros a Ha Hl. exfalso. apply (O a Ha). destruct (objs s a) eqn:Ea; try exact Logic.I; exfalso;
        rewrite (f_gone _ _ _ F1) in Hl by (rewrite Ea; auto); rewrite Ea in Hl; exact Hl.
    + intros o. unfold points. cbn. discriminate.
  - constructor; try apply F1; cbn.
    + intros j. destruct (Nat.eq_dec j i) as [->|D']; [rewrite set_eq; reflexivity|rewrite set_neq by exact D'; apply F1].
    + intros j Hj. rewrite set_neq; [apply F1; exact Hj|]. intros ->. apply Hj. left. reflexivity.
  - cbn. rewrite set_eq. reflexivity.
Qed.

Lemma destroy_all_good dec n : dec_good dec n -> forall l s busy e a, WF s busy e -> (nalive s < n)%nat -> NoDup l ->
  objs s a = Dead ->
  (forall i, In i l -> constructed (slots s i) = true /\ owner (slots s i) = Some a /\ ~ In i busy) ->
  exists s', destroy_all dec s l = Ok s' /\ WF s' busy e /\ F l s s'.
Proof.
  intros G. induction l as [|i l IH]; intros s busy e a W L ND HD H.
  - exists s. split; [reflexivity|]. split; [exact W|apply F_refl].
  - inversion ND as [|? ? N1 N2]; subst. destruct (H i (or_introl eq_refl)) as (C & O & B).
    destruct (destroy_good dec n s busy e i G W L C B) as (s1 & D & W1 & F1 & _).
    + intros j b Hj Ho Ha. destruct Hj as [->|Hj]; [rewrite O in Ho; injection Ho as <-; rewrite HD in Ha; destruct Ha|].
      destruct (wf_busy _ _ _ W j Hj) as [_ Bs]. destruct (Bs b Ho Ha) as (k & K1 & K2 & K3). exists k. split; [|auto].
      intros [<-|K]; [congruence|auto].
    + intros b Ho. rewrite O in Ho. injection Ho as <-. rewrite HD. auto.
    + cbn [destroy_all]. rewrite D. cbn [bind].
      destruct (IH s1 busy e a W1) as (s2 & D2 & W2 & F2).
      * pose proof (F_nalive _ _ _ F1). lia.
      * exact N2.
      * rewrite (f_gone _ _ _ F1); [exact HD|rewrite HD; auto].
      * intros j Hj. destruct (H j (or_intror Hj)) as (Cj & Oj & Bj).
        assert (slots s1 j = slots s j) as U.
        { destruct (slot_dec (slots s1 j) (slots s j)) as [E|E]; [exact E|].
          destruct (f_slot _ _ _ F1 j) as (b & B1 & B2 & B3); [intros [->|[]]; contradiction|exact E|].
          rewrite Oj in B1. injection B1 as <-. rewrite HD in B2. destruct B2. }
        rewrite U. auto.
      * exists s2. split; [exact D2|]. split; [exact W2|]. eapply F_trans; [|exact F1|exact F2]. intros j [[->|[]]|K]; [left; reflexivity|right; exact K].
Qed.

Lemma nalive_kill s o c : objs s o = Alive c -> (o < nobjs s)%nat -> (S (nalive (kill (set_obj s o (Alive 0)) o)) = nalive s)%nat.
Proof.
  intros H L. unfold nalive. cbn [kill set_obj objs nobjs].
  pose proof (filter_change (fun x => isalive (set (set (objs s) o (Alive 0)) o Dead x)) (fun x => isalive (objs s x)) o (nobjs s) L) as E.
  cbv beta in E. rewrite set_eq, H in E. cbn [isalive bz] in E. specialize (E ltac:(intros j Hj; rewrite !set_neq by exact Hj; reflexivity)). lia.
Qed.

Lemma s16_small z : - 2 ^ 15 <= z < 2 ^ 15 -> s16 z = z.
Proof. intros H. unfold s16. rewrite Z.mod_small by lia. lia. Qed.

Lemma decRefCnt_good n : dec_good (decRefCnt n) n.
Proof.
  induction n as [|n IH]; intros s busy e o W He L; [lia|]. cbn [decRefCnt].
  destruct (objs s o) as [|c|] eqn:H.
  1, 3: destruct (wf_dead _ _ _ W o) as [_ K]; [rewrite H; auto|lia].
  destruct (wf_cnt _ _ _ W o c H) as [E B]. pose proof (refs_nonneg s busy o) as P0. replace (c <? 0) with false by lia.
  rewrite s16_small by lia. destruct (c - 1 <=? 0) eqn:Ec.
  - assert (C1 : c = 1) by lia. clear E B. subst c. change (1 - 1) with 0. destruct (wf_kill s busy e o W H He) as [W1 M].
    assert (Lo : (o < nobjs s)%nat).
    { destruct (Nat.lt_ge_cases o (nobjs s)) as [K|K]; [exact K|]. apply (wf_objs _ _ _ W) in K. congruence. }
    pose proof (nalive_kill s o 1 H Lo) as NK.
    destruct (destroy_all_good (decRefCnt n) n IH (members s o) (kill (set_obj s o (Alive 0)) o) busy (add e o (-1)) o W1) as (s2 & D & W2 & F2).
    + lia.
    + unfold members. apply NoDup_rev, NoDup_filter, seq_NoDup.
    + cbn. apply set_eq.
    + exact M.
    + change (members (set_obj s o (Alive 0)) o) with (members s o). rewrite D. cbn [bind]. exists s2, 0. split; [reflexivity|]. split; [exact W2|].
      assert (D2 : objs s2 o = Dead) by (rewrite (f_gone _ _ _ F2); cbn; rewrite set_eq; auto).
      split; [|split; [intros _; exact D2|lia]].
      constructor.
      * apply F2.
      * apply F2.
      * intros i. rewrite (f_owner _ _ _ F2). reflexivity.
      * intros i _ Hc. destruct (in_dec Nat.eq_dec i (members s o)) as [K|K].
        -- exists o. split; [apply M, K|]. split; [rewrite H; exact I|exact D2].
        -- destruct (f_slot _ _ _ F2 i K Hc) as (a & A1 & A2 & A3). cbn in A1, A2. exists a. split; [exact A1|]. split; [|exact A3].
           destruct (Nat.eq_dec a o) as [->|Na]; [rewrite set_eq in A2; destruct A2|]. rewrite !set_neq in A2 by exact Na. exact A2.
      * intros a Ha. assert (a <> o) by (intros ->; apply Ha; rewrite H; exact I).
        rewrite (f_gone _ _ _ F2); cbn; rewrite !set_neq by assumption; auto.
      * intros a k Ha. destruct (Nat.eq_dec a o) as [->|Na]; [left; exact D2|].
        apply (f_alive _ _ _ F2). cbn. rewrite !set_neq by exact Na. exact Ha.
      * intros a Ha. assert (a <> o) by (intros ->; rewrite H in Ha; discriminate).
        apply (f_zero _ _ _ F2). cbn. rewrite !set_neq by assumption. exact Ha.
  - exists (set_obj s o (Alive (c - 1))), (c - 1). split; [reflexivity|]. split; [|split; [|split]].
    + eapply wf_ext; [|apply (wf_set_cnt s busy e o c (c - 1) W H); lia]. intros a. unfold add. destruct (a =? o)%nat; lia.
    + constructor; try reflexivity; cbn.
      * intros i _ K. congruence.
      * intros a Ha. rewrite set_neq; [reflexivity|]. intros ->. apply Ha. rewrite H. exact I.
      * intros a k Ha. right. destruct (Nat.eq_dec a o) as [->|Na]; [|rewrite set_neq by exact Na; exists k; repeat split; [exact Ha|lia|auto]].
        rewrite set_eq. rewrite H in Ha. injection Ha as <-. exists (c - 1). repeat split; lia.
      * intros a Ha. rewrite set_neq; [exact Ha|]. intros ->. rewrite H in Ha. injection Ha as ->. lia.
    + lia.
    + cbn. rewrite set_eq. discriminate.
Qed.

Lemma nalive_le s : (nalive s <= nobjs s)%nat.
Proof.
  unfold nalive. transitivity (length (filter (fun _ => true) (seq 0 (nobjs s)))); [apply filter_le; auto|].
  assert (forall l : list nat, length (filter (fun _ => true) l) = length l) as -> by (induction l; cbn; congruence).
  rewrite seq_length. lia.
Qed.
Lemma dec_top n : dec_good dec_ n.
Proof.
  intros s busy e o W He _. unfold dec_. apply (decRefCnt_good (S (nobjs s)) s busy e o W He). pose proof (nalive_le s). lia.
Qed.

(** ** Operations of the program *)
Definition zero : nat -> Z := fun _ => 0.
Notation Inv s := (WF s [] zero).

(** What an operation does to the objects: [T] are those it takes by raw pointer. *)
Record K (T : nat -> Prop) (s s' : heap) : Prop := mkK {
  k_nobjs : (nobjs s <= nobjs s')%nat;
  k_dead : forall o, objs s o = Dead -> objs s' o = Dead;
  k_zero : forall o, objs s' o = Alive 0 -> (objs s o = Alive 0 /\ ~ T o) \/ (nobjs s <= o)%nat;
  k_keep : forall o, objs s o = Alive 0 -> ~ T o -> objs s' o = Alive 0
}.
Definition none : nat -> Prop := fun _ => False.

Lemma F_K l s s' : F l s s' -> K none s s'.
Proof.
  intros A. constructor.
  - rewrite (f_nobjs _ _ _ A). lia.
  - intros o H. rewrite (f_gone _ _ _ A); [exact H|rewrite H; auto].
  - intros o H. left. split; [|auto]. destruct (objs s o) as [|c|] eqn:E.
    1, 3: rewrite (f_gone _ _ _ A) in H by (rewrite E; auto); congruence.
    destruct (f_alive _ _ _ A o c E) as [D|(c' & D & _ & [->|L])]; rewrite H in D; [discriminate|congruence|].
    injection D as <-. lia.
  - intros o H _. apply A, H.
Qed.
Lemma K_refl s : K none s s.
Proof. constructor; auto. Qed.
Lemma K_trans T1 T2 T s1 s2 s3 : (forall o, T o <-> T1 o \/ T2 o) -> (forall o, T2 o -> (o < nobjs s1)%nat) ->
  K T1 s1 s2 -> K T2 s2 s3 -> K T s1 s3.
Proof.
  intros E R A B. constructor.
  - pose proof (k_nobjs _ _ _ A). pose proof (k_nobjs _ _ _ B). lia.
  - intros o H. apply B, A, H.
  - intros o H. destruct (k_zero _ _ _ B o H) as [[H1 H2]|H1].
    + destruct (k_zero _ _ _ A o H1) as [[H3 H4]|H3]; [left; split; [exact H3|rewrite E; tauto]|right; exact H3].
    + right. pose proof (k_nobjs _ _ _ A). lia.
  - intros o H N. rewrite E in N. apply B; [apply A|]; tauto.
Qed.
Lemma K_none_r T s1 s2 s3 : K T s1 s2 -> K none s2 s3 -> K T s1 s3.
Proof. intros A B. eapply K_trans; [| |exact A|exact B]; [unfold none; tauto|intros o []]. Qed.

Lemma K_inc s o c c' : objs s o = Alive c -> 0 <= c < c' -> K (fun x => x = o) s (set_obj s o (Alive c')).
Proof.
  intros H L. constructor; cbn.
  - lia.
  - intros a Ha. rewrite set_neq; [exact Ha|]. intros ->. congruence.
  - intros a. destruct (Nat.eq_dec a o) as [->|N]; [rewrite set_eq|rewrite set_neq by exact N; auto]. intros E. injection E as E. lia.
  - intros a Ha N. rewrite set_neq by exact N. exact Ha.
Qed.
Lemma K_inc_pos s o c c' : objs s o = Alive c -> 1 <= c < c' -> K none s (set_obj s o (Alive c')).
Proof.
  intros H L. constructor; cbn.
  - lia.
  - intros a Ha. rewrite set_neq; [exact Ha|]. intros ->. congruence.
  - intros a. destruct (Nat.eq_dec a o) as [->|N]; [rewrite set_eq|rewrite set_neq by exact N; auto]. intros E. injection E as E. lia.
  - intros a Ha _. rewrite set_neq; [exact Ha|]. intros ->. rewrite H in Ha. injection Ha as ->. lia.
Qed.
Lemma K_slots T s s1 s' : objs s1 = objs s -> nobjs s1 = nobjs s -> K T s1 s' -> K T s s'.
Proof. intros E N [A B C D]. constructor; [rewrite <- N; exact A|rewrite <- E; exact B| |rewrite <- E; exact D]. rewrite <- E, <- N. exact C. Qed.
Lemma K_slots_r T s s1 s' : objs s1 = objs s' -> nobjs s1 = nobjs s' -> K T s s1 -> K T s s'.
Proof. intros E N [A B C D]. constructor; [rewrite <- N; exact A|rewrite <- E; exact B|rewrite <- E; exact C|rewrite <- E; exact D]. Qed.

(** There is room in the count for [d] more. *)
Definition room (s : heap) (p : option nat) (d : Z) : Prop :=
  match p with None => True | Some o => exists c, objs s o = Alive c /\ c + d <= 32767 end.

(** A count goes up, ready for a pointer to be stored. *)
Definition inc_p (s : heap) (p : option nat) : heap :=
  match p with
  | None => s
  | Some o => match objs s o with Alive c => set_obj s o (Alive (c + 1)) | _ => s end
  end.
Definition pay (e : nat -> Z) (p : option nat) : nat -> Z := match p with None => e | Some o => add e o 1 end.

Lemma inc_good s busy e p : WF s busy e -> room s p 1 ->
  match p with None => Ok s | Some o => incRefCnt s o end = Ok (inc_p s p) /\ WF (inc_p s p) busy (pay e p).
Proof.
  intros W R. destruct p as [o|]; [|auto]. destruct R as (c & H & L). cbn [inc_p pay]. unfold incRefCnt. rewrite H.
  destruct (wf_cnt _ _ _ W o c H) as [E B]. pose proof (refs_nonneg s busy o). pose proof (wf_e _ _ _ W o).
  replace (c <? 0) with false by lia. rewrite s16_small by lia. split; [reflexivity|].
  eapply wf_ext; [|apply (wf_set_cnt s busy e o c (c + 1) W H); lia]. intros a. unfold add. destruct (a =? o)%nat; lia.
Qed.
Lemma inc_K s busy e p : WF s busy e -> room s p 1 -> K (fun o => p = Some o) s (inc_p s p).
Proof.
  intros W R. destruct p as [o|].
  - destruct R as (c & H & L). cbn [inc_p]. rewrite H. destruct (wf_cnt _ _ _ W o c H) as [E B]. pose proof (refs_nonneg s busy o). pose proof (wf_e _ _ _ W o).
    destruct (K_inc s o c (c + 1) H) as [A1 A2 A3 A4]; [lia|]. constructor; [exact A1|exact A2| |].
    + intros a Ha. destruct (A3 a Ha) as [[P Q]|P]; [left; split; [exact P|congruence]|right; exact P].
    + intros a Ha Hn. apply A4; [exact Ha|congruence].
  - constructor; cbn; try lia; auto. intros a Ha. left. split; [exact Ha|discriminate].
Qed.
Lemma inc_K_pos s p : (forall o, p = Some o -> exists c, objs s o = Alive c /\ 1 <= c) -> K none s (inc_p s p).
Proof.
  intros H. destruct p as [o|]; [|apply K_refl]. destruct (H o eq_refl) as (c & E & L). cbn [inc_p]. rewrite E.
  apply (K_inc_pos s o c); [exact E|lia].
Qed.
Lemma inc_same s p : slots (inc_p s p) = slots s /\ nslots (inc_p s p) = nslots s /\ nobjs (inc_p s p) = nobjs s /\
  forall a, alive (objs (inc_p s p) a) <-> alive (objs s a).
Proof.
  destruct p as [o|]; [|repeat split; auto]. cbn [inc_p]. destruct (objs s o) eqn:E; repeat split; auto; cbn;
    destruct (Nat.eq_dec a o) as [->|N]; rewrite ?set_eq, ?set_neq by exact N; rewrite ?E; cbn; auto.
Qed.

(** A new slot. *)
Lemma wf_new_slot s busy e x : WF s busy e -> (forall a, owner x = Some a -> (a < nobjs s)%nat /\ constructed x = true) ->
  (forall o, points x o = true -> 1 <= e o) -> WF (new_slot s x) busy (fun o => e o - bz (points x o)).
Proof.
  intros W O P.
  assert (M : mem (nslots s) busy = false).
  { apply not_true_iff_false. rewrite mem_iff. intros K. destruct (wf_busy _ _ _ W _ K) as [C _]. apply (wf_range _ _ _ _ W) in C. lia. }
  assert (R : forall o, refs (new_slot s x) busy o = refs s busy o + bz (points x o)).
  { intros o. unfold refs. cbn [new_slot nslots]. rewrite seq_S, filter_app, app_length, Nat2Z.inj_add. f_equal.
    - f_equal. f_equal. apply filter_ext_in. intros j Hj. apply in_seq in Hj. unfold counted. cbn. rewrite set_neq by lia. reflexivity.
    - cbn [filter Nat.add]. unfold counted. rewrite M. cbn. rewrite set_eq. destruct (points x o); reflexivity. }
  assert (SF : forall a, safe s busy a -> safe (new_slot s x) busy a).
  { intros a (k & K1 & K2 & K3). exists k. split; [exact K1|]. cbn. rewrite set_neq; [auto|]. intros ->.
    rewrite (wf_slots _ _ _ W) in K3 by lia. discriminate. }
  constructor.
  - intros o c H. destruct (wf_cnt _ _ _ W o c H) as [E B]. rewrite R. split; [lia|exact B].
  - intros o H. destruct (wf_dead _ _ _ W o H) as [E1 E2]. rewrite R. destruct (points x o) eqn:Px; [apply P in Px; lia|]. cbn [bz]. lia.
  - intros o. pose proof (wf_e _ _ _ W o). destruct (points x o) eqn:Px; [apply P in Px|]; cbn [bz]; lia.
  - intros j a. cbn. destruct (Nat.eq_dec j (nslots s)) as [->|D]; [rewrite set_eq; intros Ho _; apply (O a Ho)|rewrite set_neq by exact D; apply W].
  - intros j a. cbn. destruct (Nat.eq_dec j (nslots s)) as [->|D]; [rewrite set_eq; intros Ho; apply (O a Ho)|rewrite set_neq by exact D; apply W].
  - intros j Hj. cbn in *. rewrite set_neq by lia. apply W. lia.
  - exact (wf_objs _ _ _ W).
  - intros j Hj. destruct (wf_busy _ _ _ W j Hj) as [B1 B2]. pose proof (wf_range _ _ _ _ W B1). cbn. rewrite set_neq by lia.
    split; [exact B1|]. intros a Ho Ha. apply SF, B2; assumption.
  - exact (wf_nodup _ _ _ W).
  - exact (wf_deleted _ _ _ W).
Qed.

Lemma points_slot w p o : points (Slot w true p) o = true <-> p = Some o.
Proof. unfold points. cbn. destruct p as [q|]; [rewrite Nat.eqb_eq; split; congruence|split; discriminate]. Qed.
Lemma pay_points w e p o : pay e p o - bz (points (Slot w true p) o) = e o.
Proof.
  unfold points. cbn. destruct p as [q|]; cbn; [|lia]. unfold add. rewrite (Nat.eqb_sym q o). destruct (o =? q)%nat; cbn; lia.
Qed.
Lemma pay_ge e p o : 0 <= e o -> p = Some o -> 1 <= pay e p o.
Proof. intros H ->. cbn. rewrite add_eq. lia. Qed.

Lemma construct_good s e p : WF s [] e -> room s p 1 -> exists s', construct s p = Ok s' /\ WF s' [] e /\
  s' = new_slot (inc_p s p) (Slot None true p).
Proof.
  intros W R. destruct (inc_good s [] e p W R) as [E W1]. eexists. split; [|split; [|reflexivity]].
  - unfold construct, rcInc, get_slot. cbn [new_slot slots]. rewrite set_eq. cbn [constructed bind rcPointer].
    destruct p as [o|]; [|reflexivity]. destruct R as (c & H & L). unfold incRefCnt in *. cbn [inc_p] in *. cbn [new_slot objs]. rewrite H in *.
    destruct (c <? 0); [discriminate|]. apply Ok_inj in E. assert (s16 (c + 1) = c + 1) as ->; [|reflexivity].
    assert (G : objs (set_obj s o (Alive (s16 (c + 1)))) o = objs (set_obj s o (Alive (c + 1))) o) by (rewrite E; reflexivity).
    cbn in G. rewrite !set_eq in G. congruence.
  - destruct (inc_same s p) as (I1 & I2 & I3 & I4).
    eapply wf_ext; [|apply wf_new_slot; [exact W1|cbn; discriminate|]].
    + intros o. apply pay_points.
    + intros o Ho. apply points_slot in Ho. apply pay_ge; [apply W|exact Ho].
Qed.

(** A pointee of a counted slot is alive with a positive count. *)
Lemma pointee s e i o : WF s [] e -> constructed (slots s i) = true -> rcPointer (slots s i) = Some o ->
  exists c, objs s o = Alive c /\ 1 <= c.
Proof.
  intros W C P. assert (1 <= refs s [] o) as R.
  { apply (refs_pos s [] o i (wf_range _ _ _ _ W C)). unfold counted, points. rewrite C, P, Nat.eqb_refl. reflexivity. }
  destruct (objs s o) as [|c|] eqn:E; [destruct (wf_dead _ _ _ W o) as [Z0 _]; [rewrite E; auto|lia]| |destruct (wf_dead _ _ _ W o) as [Z0 _]; [rewrite E; auto|lia]].
  exists c. split; [reflexivity|]. destruct (wf_cnt _ _ _ W o c E) as [E1 _]. pose proof (wf_e _ _ _ W o). lia.
Qed.

(** ** New objects *)
Lemma wf_new_object s e : WF s [] e -> WF (Heap (set (objs s) (nobjs s) (Alive 0)) (S (nobjs s)) (slots s) (nslots s) (deleted s)) [] e.
Proof.
  intros W. set (o := nobjs s). set (s' := Heap _ _ _ _ _).
  assert (A : objs s o = Absent) by (apply (wf_objs _ _ _ W); unfold o; lia).
  assert (NA : ~ alive (objs s o)) by (rewrite A; auto).
  destruct (wf_dead _ _ _ W o NA) as [R0 E0].
  assert (D : forall i a, owner (slots s i) = Some a -> a <> o) by (intros i a H; apply (wf_owner _ _ _ W) in H; unfold o; lia).
  constructor.
  - intros a c. cbn. change (refs s' [] a) with (refs s [] a). destruct (Nat.eq_dec a o) as [->|N]; [rewrite set_eq|rewrite set_neq by exact N; apply W].
    intros E. injection E as <-. lia.
  - intros a. cbn. change (refs s' [] a) with (refs s [] a). destruct (Nat.eq_dec a o) as [->|N]; [auto|rewrite set_neq by exact N; apply W].
  - apply W.
  - intros i a Ho. cbn in *. rewrite set_neq by (apply (D i); exact Ho). apply W, Ho.
  - intros i a Ho. cbn in *. apply (wf_owner _ _ _ W) in Ho. lia.
  - apply W.
  - intros a. cbn. destruct (Nat.eq_dec a o) as [->|N]; [rewrite set_eq; unfold o; split; [discriminate|lia]|rewrite set_neq by exact N].
    rewrite (wf_objs _ _ _ W a). unfold o in N. lia.
  - intros i [].
  - apply W.
  - intros a. cbn. rewrite (wf_deleted _ _ _ W a). destruct (Nat.eq_dec a o) as [->|N]; [rewrite set_eq, A; split; discriminate|rewrite set_neq by exact N; reflexivity].
Qed.
Lemma wf_add_members k : forall s e o, WF s [] e -> (o < nobjs s)%nat ->
  WF (add_members s o k) [] e /\ objs (add_members s o k) = objs s /\ nobjs (add_members s o k) = nobjs s.
Proof.
  induction k as [|k IH]; intros s e o W L; [auto|]. cbn [add_members].
  destruct (IH (new_slot s (Slot (Some o) true None)) e o) as (W1 & E1 & E2).
  - eapply wf_ext; [|apply wf_new_slot; [exact W| |]].
    + intros a. unfold points. cbn. lia.
    + cbn. intros a E. injection E as <-. auto.
    + intros a. unfold points. cbn. discriminate.
  - exact L.
  - split; [exact W1|]. split; assumption.
Qed.

(** ** Duties of the program *)
Definition may_write (s : heap) (i : nat) : Prop :=
  forall a, owner (slots s i) = Some a -> alive (objs s a) ->
  exists k, constructed (slots s k) = true /\ owner (slots s k) = None /\ rcPointer (slots s k) = Some a.
Definition allowed (s : heap) (x : op) : Prop :=
  match x with
  | New _ | Declare => True
  | CopyOf j => constructed (slots s j) = true /\ room s (rcPointer (slots s j)) 1
  | OfRaw o => room s o 1
  | Assign i j => constructed (slots s i) = true /\ constructed (slots s j) = true /\ may_write s i /\ room s (rcPointer (slots s j)) 2
  | AssignRaw i o => constructed (slots s i) = true /\ room s o 1
  | Free i => constructed (slots s i) = true /\ may_write s i
  | Destroy i => constructed (slots s i) = true /\ owner (slots s i) = None
  end.
Definition raw (x : op) (o : nat) : Prop :=
  match x with OfRaw p | AssignRaw _ p => p = Some o | _ => False end.

Lemma may_write_release s e i : WF s [] e -> may_write s i -> may_release s [] i.
Proof.
  intros W M j a [->|[]] Ho Ha. destruct (M a Ho Ha) as (k & K1 & K2 & K3). exists k.
  split; [intros [<-|[]]; congruence|]. split; [exact K2|]. unfold points. rewrite K1, K3, Nat.eqb_refl. reflexivity.
Qed.

Lemma put_ok s i p : constructed (slots s i) = true -> put s i p = Ok (set_slot s i (Slot (owner (slots s i)) true p)).
Proof. intros C. unfold put, get_slot. rewrite C. reflexivity. Qed.

Lemma step_good s x : Inv s -> allowed s x -> exists s', step s x = Ok s' /\ Inv s' /\ K (raw x) s s'.
Proof.
  intros W A. destruct x as [k| |j|p|i j|i p|i|i]; cbn [step allowed] in *.
  - destruct (wf_add_members k _ zero (nobjs s) (wf_new_object s zero W)) as (W1 & E1 & E2); [cbn; lia|].
    eexists. split; [reflexivity|]. unfold new_obj. split; [exact W1|]. constructor; rewrite ?E1, ?E2; cbn.
    + lia.
    + intros o H. rewrite set_neq; [exact H|]. intros ->. rewrite (proj2 (wf_objs _ _ _ W (nobjs s))) in H by lia. discriminate.
    + intros o. destruct (Nat.eq_dec o (nobjs s)) as [->|N]; [right; lia|rewrite set_neq by exact N; auto].
    + intros o H _. rewrite set_neq; [exact H|]. intros ->. rewrite (proj2 (wf_objs _ _ _ W (nobjs s))) in H by lia. discriminate.
  - destruct (construct_good s zero None W Logic.I) as (s' & E & W1 & D). exists s'. split; [exact E|]. split; [exact W1|]. subst s'. cbn.
    constructor; cbn; auto.
  - destruct A as [C R]. unfold get_slot. rewrite C. cbn [bind].
    destruct (construct_good s zero _ W R) as (s' & E & W1 & D). exists s'. split; [exact E|]. split; [exact W1|]. subst s'.
    eapply K_slots_r; [| |apply (inc_K_pos s (rcPointer (slots s j)))]; try reflexivity. intros o P. apply (pointee s zero j o W C P).
  - destruct (construct_good s zero _ W A) as (s' & E & W1 & D). exists s'. split; [exact E|]. split; [exact W1|]. subst s'.
    eapply K_slots_r; [| |apply (inc_K s [] zero p W A)]; reflexivity.
  - destruct A as (Ci & Cj & M & R). unfold get_slot at 1. rewrite Cj. cbn [bind]. set (p := rcPointer (slots s j)) in *.
    assert (R1 : room s p 1) by (destruct p as [o|]; [destruct R as (c & H & L); exists c; split; [exact H|lia]|exact Logic.I]).
    assert (PP : forall o, p = Some o -> exists c, objs s o = Alive c /\ 1 <= c) by (intros o P; apply (pointee s zero j o W Cj P)).
    destruct (construct_good s zero p W R1) as (s1 & E & W1 & D). rewrite E. cbn [bind].
    pose proof (wf_range _ _ _ _ W Ci) as Li.
    destruct (inc_same s p) as (I1 & I2 & I3 & I4).
    assert (S1 : slots s1 = set (slots s) (nslots s) (Slot None true p)) by (rewrite D; cbn; rewrite I1, I2; reflexivity).
    assert (R2 : room s1 p 1).
    { rewrite D. destruct p as [o|]; [|exact Logic.I]. destruct R as (c & H & L). cbn [inc_p new_slot objs]. rewrite H. exists (c + 1). cbn. rewrite set_eq. split; [reflexivity|lia]. }
    unfold rcInc, get_slot at 1. rewrite S1, set_eq. cbn [constructed bind rcPointer].
    destruct (inc_good s1 [] zero p W1 R2) as [E2 W2]. rewrite E2. cbn [bind]. set (s2 := inc_p s1 p) in *.
    destruct (inc_same s1 p) as (J1 & J2 & J3 & J4). fold s2 in J1, J2, J3, J4.
    assert (S2 : slots s2 = set (slots s) (nslots s) (Slot None true p)) by (rewrite J1; exact S1).
    assert (Oi : slots s2 i = slots s i) by (rewrite S2, set_neq by lia; reflexivity).
    assert (M2 : may_write s2 i).
    { intros a Ho Ha. rewrite Oi in Ho. assert (alive (objs s a)) as Ha' by (apply I4; change (objs (inc_p s p)) with (objs (new_slot (inc_p s p) (Slot None true p))); rewrite <- D; apply J4, Ha).
      destruct (M a Ho Ha') as (k & K1 & K2 & K3). exists k. pose proof (wf_range _ _ _ _ W K1). rewrite S2, set_neq by lia. auto. }
    destruct (release dec_ (S (nalive s2)) s2 [] (pay zero p) i (dec_top _) W2 ltac:(lia)) as (s3 & E3 & F3 & C3 & FIN).
    { rewrite Oi. exact Ci. } { intros []. } { eapply may_write_release; eassumption. }
    rewrite E3. cbn [bind].
    assert (S3 : slots s3 (nslots s) = Slot None true p).
    { destruct (slot_dec (slots s3 (nslots s)) (slots s2 (nslots s))) as [U|U]; [rewrite U, S2, set_eq; reflexivity|].
      destruct (f_slot _ _ _ F3 (nslots s)) as (a & B1 & _); [intros [K|[]]; lia|exact U|]. rewrite S2, set_eq in B1. discriminate. }
    unfold get_slot at 1. rewrite S3. cbn [constructed bind rcPointer]. rewrite put_ok by exact C3. cbn [bind].
    set (x := Slot (owner (slots s3 i)) true p).
    assert (W4 : Inv (set_slot s3 i x)).
    { eapply wf_ext; [|apply FIN; unfold x; cbn [owner constructed]].
      - intros o. apply pay_points.
      - apply F3.
      - reflexivity.
      - intros o Ho. apply points_slot in Ho. apply pay_ge; [unfold zero; lia|exact Ho]. }
    assert (S4 : slots (set_slot s3 i x) (nslots s) = Slot None true p) by (cbn; rewrite set_neq by lia; exact S3).
    destruct (destroy_good dec_ (S (nalive (set_slot s3 i x))) (set_slot s3 i x) [] zero (nslots s) (dec_top _) W4 ltac:(lia)) as (s5 & E5 & W5 & F5 & _).
    { rewrite S4. reflexivity. } { intros []. }
    { intros k a [->|[]]. rewrite S4. discriminate. }
    { intros a. rewrite S4. discriminate. }
    exists s5. split; [exact E5|]. split; [exact W5|].
    apply (K_none_r _ s (set_slot s3 i x)); [|exact (F_K _ _ _ F5)].
    apply (K_slots_r _ _ s3); [reflexivity|reflexivity|]. apply (K_none_r _ s s2); [|exact (F_K _ _ _ F3)].
    apply (K_none_r _ s s1).
    + rewrite D. eapply K_slots_r; [| |apply (inc_K_pos s p PP)]; reflexivity.
    + apply inc_K_pos. intros o P. rewrite D. destruct (PP o P) as (c & H & L). rewrite P. cbn [inc_p new_slot objs]. rewrite H. cbn. exists (c + 1). rewrite set_eq. split; [reflexivity|lia].
  - destruct A as [C R]. unfold get_slot at 1. rewrite C. cbn [bind]. rewrite put_ok by exact C. cbn [bind].
    set (x := Slot (owner (slots s i)) true p).
    pose proof (wf_range _ _ _ _ W C) as Li.
    destruct (inc_good s [] zero p W R) as [E1 W1]. destruct (inc_same s p) as (I1 & I2 & I3 & I4).
    assert (E : rcInc (set_slot s i x) i = Ok (set_slot (inc_p s p) i x)).
    { unfold rcInc, get_slot. cbn [set_slot slots]. rewrite set_eq. cbn [constructed x bind rcPointer].
      destruct p as [o|]; [|reflexivity]. destruct R as (c & H & L). unfold incRefCnt in *. cbn [inc_p] in *. cbn [set_slot objs]. rewrite H in *.
      destruct (c <? 0); [discriminate|]. apply Ok_inj in E1. assert (s16 (c + 1) = c + 1) as ->; [|reflexivity].
      assert (G : objs (set_obj s o (Alive (s16 (c + 1)))) o = objs (set_obj s o (Alive (c + 1))) o) by (rewrite E1; reflexivity).
      cbn in G. rewrite !set_eq in G. congruence. }
    rewrite E. cbn [bind]. set (s1 := inc_p s p) in *.
    assert (KI : K (raw (AssignRaw i p)) s (set_slot s1 i x)).
    { eapply K_slots_r; [| |apply (inc_K s [] zero p W R)]; reflexivity. }
    (* writing the slot moves its old count to the decrement *)
    assert (W2 : WF (set_slot s1 i x) [] (pay zero (rcPointer (slots s i)))).
    { assert (RX : forall o, refs (set_slot s1 i x) [] o + bz (points (slots s i) o) = refs s1 [] o + bz (points x o)).
      { intros o. pose proof (refs_change s1 (set_slot s1 i x) [] [] o i) as RC. rewrite I2 in RC. specialize (RC Li I2).
        assert (forall j, j <> i -> counted (set_slot s1 i x) [] o j = counted s1 [] o j) as Q by (intros j Hj; unfold counted; cbn; rewrite set_neq by exact Hj; reflexivity).
        specialize (RC Q). unfold counted in RC. cbn [mem existsb negb andb set_slot slots] in RC. rewrite set_eq, I1 in RC. exact RC. }
      assert (PB : forall q o, bz (points (Slot (owner (slots s i)) true q) o) = pay zero q o).
      { intros q o. pose proof (pay_points (owner (slots s i)) zero q o) as PP. unfold zero in PP at 2. lia. }
      assert (PS : forall o, bz (points (slots s i) o) = pay zero (rcPointer (slots s i)) o).
      { intros o. rewrite <- PB. unfold points. rewrite C. reflexivity. }
      assert (PX : forall o, bz (points x o) = pay zero p o) by (intros o; apply PB).
      constructor.
      - intros o c H. destruct (wf_cnt _ _ _ W1 o c H) as [Q B]. split; [|exact B]. specialize (RX o). rewrite PS, PX in RX. lia.
      - intros o H. destruct (wf_dead _ _ _ W1 o H) as [Q B]. specialize (RX o). rewrite PS, PX in RX. pose proof (refs_nonneg (set_slot s1 i x) [] o).
        assert (0 <= pay zero (rcPointer (slots s i)) o) by (rewrite <- PS; destruct (points _ _); cbn; lia). lia.
      - intros o. rewrite <- PS. destruct (points _ _); cbn; lia.
      - intros j a. cbn. destruct (Nat.eq_dec j i) as [->|D]; [rewrite set_eq; reflexivity|rewrite set_neq by exact D; apply W1].
      - intros j a. cbn. destruct (Nat.eq_dec j i) as [->|D]; [rewrite set_eq; cbn; rewrite <- I1|rewrite set_neq by exact D]; apply W1.
      - intros j Hj. cbn in *. rewrite I2 in Hj. rewrite set_neq by lia. apply W1. rewrite I2. exact Hj.
      - apply W1.
      - intros j [].
      - apply W1.
      - apply W1. }
    destruct (rcPointer (slots s i)) as [old|] eqn:PO.
    + destruct (dec_top (S (nalive (set_slot s1 i x))) _ [] _ old W2) as (s3 & k & E3 & W3 & F3 & _); [cbn [pay]; rewrite add_eq; unfold zero; lia|lia|].
      rewrite E3. cbn [bind]. exists s3. split; [reflexivity|]. split.
      * eapply wf_ext; [|exact W3]. intros o. cbn [pay]. unfold add, zero. destruct (o =? old)%nat; lia.
      * apply (K_none_r _ s (set_slot s1 i x)); [exact KI|exact (F_K _ _ _ F3)].
    + exists (set_slot s1 i x). split; [reflexivity|]. split; [exact W2|exact KI].
  - destruct A as [C M]. destruct (release dec_ (S (nalive s)) s [] zero i (dec_top _) W ltac:(lia) C) as (s1 & E & F1 & C1 & FIN); [intros []|eapply may_write_release; eassumption|].
    rewrite E. cbn [bind]. rewrite put_ok by exact C1. eexists. split; [reflexivity|]. split.
    + eapply wf_ext; [|apply FIN; cbn].
      * intros o. unfold points. cbn. unfold zero. lia.
      * apply F1.
      * reflexivity.
      * intros o. unfold points. cbn. discriminate.
    + eapply K_slots_r; [| |exact (F_K _ _ _ F1)]; reflexivity.
  - destruct A as [C O]. destruct (destroy_good dec_ (S (nalive s)) s [] zero i (dec_top _) W ltac:(lia) C) as (s1 & E & W1 & F1 & _).
    + auto.
    + intros j a [->|[]]. rewrite O. discriminate.
    + intros a. rewrite O. discriminate.
    + exists s1. split; [exact E|]. split; [exact W1|exact (F_K _ _ _ F1)].
Qed.

Lemma empty_inv : Inv empty.
Proof.
  constructor; cbn; try (intros; discriminate); auto.
  - intros o. split; [intros _; lia|reflexivity].
  - intros i [].
  - constructor.
  - intros o. split; [intros []|discriminate].
Qed.
