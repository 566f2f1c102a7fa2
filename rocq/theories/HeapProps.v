(** C122: a priority queue on its heap. *)
From Verif Require Import Base BaseFacts HeapModel HeapFacts.
From Coq Require Import Lia ZifyNat Permutation Sorted.
Local Open Scope nat_scope.

(** The priority of an element that exists. *)
Definition priority (w : world) (x : nat) (z : Z) : Prop := nth_error (elements w) x = Some (Some z).
(** What a program has to observe: elements that exist are written, one that is queued is not written again, deleted or
    given another priority. *)
Definition careful (w : world) (o : op) : Prop :=
  match o with
  | Write p => exists x z, p = Some x /\ priority w x z /\ ~ In (Some x) (mQ w)
  | Delete x | SetPrio x _ => (exists z, priority w x z) /\ ~ In (Some x) (mQ w)
  | _ => True
  end.
(** The states such programs come to. *)
Inductive keeps : world -> Prop :=
  | keeps_0 : keeps world0
  | keeps_S : forall w o r w', keeps w -> careful w o -> step w o = Ok (r, w') -> keeps w'.
(** The pointers written and the pointers read, without NULL. *)
Definition some (p : ptr) : list nat := match p with Some x => [x] | None => [] end.
Fixpoint somes (l : list ptr) : list nat := match l with [] => [] | p :: l => some p ++ somes l end.
Fixpoint written (os : list op) : list nat := match os with [] => [] | Write p :: os => some p ++ written os | _ :: os => written os end.
Fixpoint read_ (os : list op) (rs : list out) : list nat :=
  match os, rs with
  | ReadNoBlock :: os, Pointer p :: rs => some p ++ read_ os rs
  | _ :: os, _ :: rs => read_ os rs
  | _, _ => []
  end.

(** ** Facts *)
Definition inv (w : world) : Prop := heap (elements w) (mQ w) /\ (forall p, In p (mQ w) -> live (elements w) p) /\ NoDup (mQ w).
Lemma live_iff : forall e p, live e p <-> exists x z, p = Some x /\ nth_error e x = Some (Some z).
Proof.
  intros e p. unfold live, deref. split.
  - intros (z & H). destruct p as [x|]; [|discriminate]. destruct (nth_error e x) as [[y|]|] eqn:N; try discriminate. eauto.
  - intros (x & z & -> & N). rewrite N. eauto.
Qed.
Lemma pr_some : forall e x z, nth_error e x = Some (Some z) -> pr e (Some x) = z.
Proof. intros e x z N. unfold pr, deref. rewrite N. reflexivity. Qed.
Definition same (e e' : list (option Z)) (l : list ptr) : Prop := forall x, In (Some x) l -> nth_error e' x = nth_error e x.
Lemma deref_same : forall e e' l p, same e e' l -> In p l -> deref e' p = deref e p.
Proof. intros e e' l p H I. destruct p as [x|]; cbn [deref]; [|reflexivity]. rewrite (H x I). reflexivity. Qed.
Lemma inv_same : forall e e' l, same e e' l -> inv (W e l) -> inv (W e' l).
Proof.
  intros e e' l H (A & B & C). cbn [elements mQ] in *. split; [|split; auto]; cbn [elements mQ].
  - intros i I. unfold val, pr. rewrite !(deref_same e e' l) by (auto; apply nth_In; try apply Nat.div_lt_upper_bound; lia). apply A. auto.
  - intros p I. destruct (B p I) as (z & Z). exists z. rewrite (deref_same e e' l); auto.
Qed.
Lemma upd_same : forall e l x v, ~ In (Some x) l -> same e (upd e x v) l.
Proof. intros e l x v N y I. apply nth_error_upd_neq. congruence. Qed.
Lemma perm_inv : forall e l l', Permutation l' l -> heap e l' -> (forall p, In p l -> live e p) -> NoDup l -> inv (W e l').
Proof.
  intros e l l' P H G N. split; [auto|]. split; cbn [elements mQ].
  - intros p I. apply G. eapply Permutation_in; eauto.
  - eapply Permutation_NoDup; [symmetry; eauto|auto].
Qed.
Lemma clear_ok : forall f e l, length l <= f -> inv (W e l) -> exists e', clear f e l = Ok e' /\
  forall x, (In (Some x) l -> nth_error e' x = Some None) /\ (~ In (Some x) l -> nth_error e' x = nth_error e x).
Proof.
  induction f as [|f IH]; intros e l L H.
  { destruct l; [|cbn [length] in L; lia]. exists e. split; [reflexivity|]. intros x. split; [intros []|auto]. }
  destruct l as [|t r]. { exists e. split; [reflexivity|]. intros x. split; [intros []|auto]. }
  cbn [clear]. destruct H as (H & G & N). cbn [elements mQ] in *.
  destruct (pop_ok e t r H G) as (l' & E & HP). assert (P := pop_perm _ _ _ _ E).
  unfold top, rd. cbn [nth_error bind]. rewrite E. cbn [bind].
  destruct (proj1 (live_iff e t) (G t (or_introl eq_refl))) as (y & z & -> & NZ). cbn [delete]. rewrite NZ. cbn [bind].
  inversion N as [|? ? N1 N2]; subst.
  assert (NI : ~ In (Some y) l') by (intros I; apply N1; eapply Permutation_in; eauto).
  destruct (IH (upd e y None) l') as (e' & E' & S).
  { rewrite (Permutation_length P). cbn [length] in L. lia. }
  { apply inv_same with e. { apply upd_same. auto. } apply perm_inv with r; auto. intros. apply G. right. auto. }
  exists e'. split; [auto|]. intros x. destruct (S x) as (S1 & S2). split.
  - intros [I|I].
    + injection I as <-. rewrite S2 by auto. apply nth_error_upd_eq. apply nth_error_Some. congruence.
    + apply S1. eapply Permutation_in; [symmetry; eauto|auto].
  - intros I. rewrite S2. { apply nth_error_upd_neq. intros ->. apply I. left. reflexivity. }
    intros J. apply I. right. eapply Permutation_in; eauto.
Qed.
Lemma step_inv : forall w o, inv w -> careful w o -> exists r w', step w o = Ok (r, w') /\ inv w'.
Proof.
  intros [e l] o (H & G & N) C. cbn [elements mQ] in *. destruct o; cbn [step elements mQ] in *.
  - destruct C as (x & z & -> & P & NI). unfold priority in P. cbn [elements mQ] in P, NI.
    assert (LV : live e (Some x)) by (apply live_iff; eauto).
    destruct (push_ok e l (Some x) H G LV) as (l' & E & HP). rewrite E. cbn [bind]. eexists _, _. split; [reflexivity|].
    apply perm_inv with (Some x :: l); auto.
    + eapply push_perm; eauto.
    + intros p [<-|I]; auto.
    + constructor; auto.
  - destruct l as [|t r]; cbn [ipqGet]. { eexists _, _. split; [reflexivity|]. split; auto. }
    destruct (pop_ok e t r H G) as (l' & E & HP). unfold top, rd. cbn [nth_error bind]. rewrite E. cbn [bind fst snd].
    eexists _, _. split; [reflexivity|]. inversion N; subst. apply perm_inv with r; auto.
    + eapply pop_perm; eauto.
    + intros. apply G. right. auto.
  - destruct l as [|t r]; eexists _, _; (split; [reflexivity|]); split; auto.
  - eexists _, _; (split; [reflexivity|]); split; auto.
  - destruct (clear_ok (length l) e l) as (e' & E & _); auto. { split; auto. } rewrite E. cbn [bind]. eexists _, _. split; [reflexivity|].
    split; [|split]; cbn [elements mQ]. { intros i I. cbn [length] in I. lia. } { intros p []. } { constructor. }
  - eexists _, _. split; [reflexivity|]. apply inv_same with e; [|split; auto]. intros x I. destruct (G _ I) as (y & Y). cbn [deref] in Y.
    apply nth_error_app1. apply nth_error_Some. destruct (nth_error e x); discriminate.
  - destruct C as ((z & P) & NI). unfold priority in P. cbn [elements mQ] in P, NI. cbn [delete]. rewrite P. cbn [bind].
    eexists _, _. split; [reflexivity|]. apply inv_same with e; [|split; auto]. apply upd_same. auto.
  - destruct C as ((y & P) & NI). unfold priority in P. cbn [elements mQ] in P, NI. rewrite P.
    eexists _, _. split; [reflexivity|]. apply inv_same with e; [|split; auto]. apply upd_same. auto.
Qed.
Lemma keeps_inv : forall w, keeps w -> inv w.
Proof.
  intros w K. induction K as [|w o r w' K IH C E].
  - split; [|split]; cbn [elements mQ world0]. { intros i I. cbn [length] in I. lia. } { intros p []. } { constructor. }
  - destruct (step_inv w o IH C) as (r' & w2 & E' & V). congruence.
Qed.
Lemma inv_least : forall e t r y a b, inv (W e (Some t :: r)) -> nth_error e t = Some (Some a) -> In (Some y) (Some t :: r) ->
  nth_error e y = Some (Some b) -> (a <= b)%Z.
Proof. intros e t r y a b (H & _) A I B. cbn [elements mQ] in H. assert (Q := heap_top _ _ _ H _ I). rewrite (pr_some _ _ _ A), (pr_some _ _ _ B) in Q. auto. Qed.
Lemma somes_app : forall a b, somes (a ++ b) = somes a ++ somes b.
Proof. induction a; intros; cbn [somes app]; [reflexivity|]. rewrite IHa, app_assoc. reflexivity. Qed.
Lemma somes_perm : forall a b, Permutation a b -> Permutation (somes a) (somes b).
Proof.
  induction 1; cbn [somes].
  - reflexivity.
  - apply Permutation_app_head. auto.
  - rewrite !app_assoc. apply Permutation_app_tail. apply Permutation_app_comm.
  - etransitivity; eauto.
Qed.

(** ** Theorems *)
(** A careful program never does anything undefined, and every call returns. *)
Theorem C122_defined : forall w o, keeps w -> careful w o -> exists r w', step w o = Ok (r, w').
Proof. intros w o K C. destruct (step_inv w o (keeps_inv w K) C) as (r & w' & E & _). eauto. Qed.
Print Assumptions C122_defined.

(** What a read returns is the least of what is queued, it takes just that out; NULL only if nothing is queued. *)
Theorem C122_least : forall w r w', keeps w -> step w ReadNoBlock = Ok (r, w') ->
  (mQ w = [] /\ r = Pointer None /\ w' = w) \/
  exists x a, r = Pointer (Some x) /\ priority w x a /\ Permutation (mQ w) (Some x :: mQ w') /\ elements w' = elements w /\
    forall y b, In (Some y) (mQ w) -> priority w y b -> (a <= b)%Z.
Proof.
  intros [e l] r w' K E. assert (V := keeps_inv _ K). cbn [step elements mQ] in *. destruct l as [|t q]; cbn [ipqGet bind fst snd] in E.
  { injection E as <- <-. left. auto. }
  right. destruct V as (H & G & N). cbn [elements mQ] in *.
  destruct (pop_ok e t q H G) as (l' & E' & HP). unfold top, rd in E. cbn [nth_error bind] in E. rewrite E' in E. cbn [bind fst snd] in E.
  injection E as <- <-. destruct (proj1 (live_iff e t) (G t (or_introl eq_refl))) as (x & a & -> & P). exists x, a.
  split; [reflexivity|]. split; [exact P|]. cbn [mQ elements]. split. { constructor. symmetry. eapply pop_perm; eauto. }
  split; [reflexivity|]. intros y b I B. eapply inv_least with (e := e); eauto. split; auto.
Qed.
Print Assumptions C122_least.

(** peek shows what a read would return, and changes nothing. *)
Theorem C122_peek : forall w r w', keeps w -> step w Peek = Ok (r, w') -> w' = w /\ exists w2, step w ReadNoBlock = Ok (r, w2).
Proof.
  intros w r w' K E. destruct (step_inv w ReadNoBlock (keeps_inv w K) Logic.I) as (r2 & w2 & E2 & _).
  destruct w as [e l]. cbn [step elements mQ] in *. destruct l as [|t q].
  - injection E as <- <-. split; [reflexivity|]. eexists. reflexivity.
  - unfold top, rd in E. cbn [nth_error bind] in E. injection E as <- <-. split; [reflexivity|].
    cbn [ipqGet] in *. unfold top, rd in *. cbn [nth_error bind] in *. destruct (pop e (t :: q)); try discriminate. eexists. reflexivity.
Qed.
Print Assumptions C122_peek.

(** Read until it is empty, the queue gives all it has, in ascending order. *)
Theorem C122_sorted : forall n w, keeps w -> length (mQ w) = n -> exists xs zs w', run w (repeat ReadNoBlock n) = Ok (map (fun x => Pointer (Some x)) xs, w') /\
  mQ w' = [] /\ Permutation (map Some xs) (mQ w) /\ Forall2 (priority w) xs zs /\ StronglySorted Z.le zs.
Proof.
  induction n as [|n IH]; intros w K L.
  - exists [], [], w. destruct (mQ w); [|discriminate L]. repeat split; constructor.
  - destruct (C122_defined w ReadNoBlock K Logic.I) as (r & w1 & E). assert (K1 : keeps w1) by (eapply keeps_S; eauto; exact Logic.I).
    destruct (C122_least w r w1 K E) as [(Q & _)|(x & a & -> & P & PM & EL & LE)]. { rewrite Q in L. discriminate. }
    destruct (IH w1 K1) as (xs & zs & w2 & R & M & PX & F & SS). { apply Permutation_length in PM. cbn [length] in PM. lia. }
    assert (F' : Forall2 (priority w) xs zs). { unfold priority in *. rewrite EL in F. exact F. }
    exists (x :: xs), (a :: zs), w2. cbn [repeat run]. rewrite E. cbn [bind fst snd]. rewrite R. cbn [bind fst snd]. split; [reflexivity|].
    split; [auto|]. split. { cbn [map]. rewrite PM. constructor. auto. } split. { constructor; auto. } constructor; auto.
    assert (IN : forall y, In y xs -> In (Some y) (mQ w)).
    { intros y I. eapply Permutation_in; [symmetry; eauto|]. right. eapply Permutation_in; eauto. apply in_map. auto. }
    clear - F' LE IN. induction F' as [|y b ys bs P F IHF]; constructor.
    + apply (LE y b); auto. apply IN. left. reflexivity.
    + apply IHF. intros. apply IN. right. auto.
Qed.
Print Assumptions C122_sorted.

(** clear deletes what is queued, each once, and nothing else. *)
Theorem C122_clear : forall w r w', keeps w -> step w Clear = Ok (r, w') -> mQ w' = [] /\
  forall x, (In (Some x) (mQ w) -> nth_error (elements w') x = Some None) /\
            (~ In (Some x) (mQ w) -> nth_error (elements w') x = nth_error (elements w) x).
Proof.
  intros [e l] r w' K E. assert (V := keeps_inv _ K). cbn [step elements mQ] in *.
  destruct (clear_ok (length l) e l) as (e' & E' & S); auto. rewrite E' in E. cbn [bind] in E. injection E as <- <-. split; [reflexivity|]. exact S.
Qed.
Print Assumptions C122_clear.

(** Whatever the program does, with priorities changed while queued as well: what was written is read or is queued, each as
    often as it was written. *)
Theorem C122_once : forall os rs w, run world0 os = Ok (rs, w) -> ~ In Clear os -> Permutation (written os) (read_ os rs ++ somes (mQ w)).
Proof.
  enough (G : forall os v rs w, run v os = Ok (rs, w) -> ~ In Clear os -> Permutation (written os ++ somes (mQ v)) (read_ os rs ++ somes (mQ w))).
  { intros os rs w E N. assert (Q := G os world0 rs w E N). cbn [mQ world0 somes] in Q. rewrite app_nil_r in Q. auto. }
  induction os as [|o os IH]; intros [e l] rs w E N; cbn [run] in E.
  { injection E as <- <-. reflexivity. }
  mgo E. mgo E. destruct x as [r v']. destruct x0 as [rs' w']. cbn [fst snd] in *. injection E as <- <-.
  assert (N' : ~ In Clear os) by (intros I; apply N; right; auto). specialize (IH v' rs' w' A0 N').
  destruct o; cbn [step elements mQ] in A; cbn [written read_ mQ].
  - mgo A. injection A as <- <-. apply push_perm in A1. cbn [mQ] in IH. rewrite <- IH. rewrite (somes_perm _ _ A1). cbn [somes].
    rewrite <- app_assoc. rewrite !app_assoc. apply Permutation_app_tail. apply Permutation_app_comm.
  - mgo A. injection A as <- <-. destruct x as [p l2]. cbn [fst snd mQ] in *. destruct l as [|t q]; cbn [ipqGet] in A1.
    + injection A1 as <- <-. exact IH.
    + unfold top, rd in A1. cbn [nth_error bind] in A1. mgo A1. injection A1 as <- <-. apply pop_perm in A. cbn [somes].
      rewrite <- app_assoc, <- IH. rewrite (somes_perm _ _ A). rewrite !app_assoc. apply Permutation_app_tail. apply Permutation_app_comm.
  - destruct l as [|t q]; [injection A as <- <-|unfold top, rd in A; cbn [nth_error bind] in A; injection A as <- <-]; exact IH.
  - injection A as <- <-. exact IH.
  - destruct N. left. reflexivity.
  - injection A as <- <-. exact IH.
  - mgo A. injection A as <- <-. exact IH.
  - destruct (nth_error e x) as [[y|]|]; try discriminate. injection A as <- <-. exact IH.
Qed.
Print Assumptions C122_once.

(** NULL: the comparison goes through the pointers. NULL written to a queue that is not empty, or anything written to a queue
    that has NULL alone, is undefined, whatever the elements. *)
Theorem C122_null_refuted : (forall e l, l <> [] -> step (W e l) (Write None) = UB) /\ (forall e p, step (W e [None]) (Write p) = UB).
Proof.
  assert (U : forall e p, greater e p None = UB).
  { intros. unfold greater. destruct p as [x|]; cbn [deref]; [|reflexivity]. destruct (nth_error e x) as [[y|]|]; reflexivity. }
  split.
  - intros e l N. cbn [step elements mQ]. unfold push. destruct (exists_last N) as (m & t & ->). rewrite app_length. cbn [length].
    replace (length m + 1) with (S (length m)) by lia. cbn [push_heap].
    rewrite rd_nth. 2: { rewrite !app_length. cbn [length]. apply Nat.div_lt_upper_bound; lia. }
    cbn [bind]. rewrite U. reflexivity.
  - intros e p. reflexivity.
Qed.
Print Assumptions C122_null_refuted.

(** A priority changed while the element is queued: a read returns an element greater than one left in the queue. An element
    deleted while queued: the next write is undefined. *)
Theorem C122_change_refuted :
  (exists rs w, run world0 [Make 1; Make 2; Write (Some 0); Write (Some 1); SetPrio 0 9; ReadNoBlock] = Ok (rs ++ [Pointer (Some 0)], w) /\
     priority w 0 9 /\ In (Some 1) (mQ w) /\ priority w 1 2) /\
  run world0 [Make 1; Make 2; Write (Some 0); Delete 0; Write (Some 1)] = UB /\
  (exists rs w, run world0 [Make 1; Write (Some 0); Write (Some 0); ReadNoBlock; ReadNoBlock] = Ok (rs ++ [Pointer (Some 0); Pointer (Some 0)], w)) /\
  run world0 [Make 1; Write (Some 0); Write (Some 0); Clear] = UB.
Proof.
  split; [|split; [|split]].
  - exists [Number 0; Number 1; Nothing; Nothing; Nothing], (W [Some 9%Z; Some 2%Z] [Some 1]). repeat split. left. reflexivity.
  - reflexivity.
  - exists [Number 0; Nothing; Nothing], (W [Some 1%Z] []). reflexivity.
  - reflexivity.
Qed.
Print Assumptions C122_change_refuted.

(** Elements of the same priority do not come out in the order they were written:
    of four equal ones the third is read second. *)
Theorem C122_order_refuted : exists rs w,
  run world0 [Make 5; Make 5; Make 5; Make 5; Write (Some 0); Write (Some 1); Write (Some 2); Write (Some 3); ReadNoBlock; ReadNoBlock]
  = Ok (rs ++ [Pointer (Some 0); Pointer (Some 2)], w) /\ In (Some 1) (mQ w).
Proof.
  exists [Number 0; Number 1; Number 2; Number 3; Nothing; Nothing; Nothing; Nothing], (W (repeat (Some 5%Z) 4) [Some 1; Some 3] ). vm_compute.
  split; [reflexivity|]. auto.
Qed.
Print Assumptions C122_order_refuted.

(** ** Examples *)
Definition seven : list op := map Make [5; 3; 8; 1; 9; 2; 7]%Z ++ map (fun x => Write (Some x)) [0; 1; 2; 3; 4; 5; 6].
Example seven_sorted : exists rs w, run world0 (seven ++ repeat ReadNoBlock 8) = Ok (rs ++ map Pointer [Some 3; Some 5; Some 1; Some 0; Some 6; Some 2; Some 4; None], w).
Proof. exists (map Number [0; 1; 2; 3; 4; 5; 6] ++ repeat Nothing 7). eexists. vm_compute. reflexivity. Qed.
(** The state after the writes is one that careful programs come to. *)
Lemma keeps_next : forall w o, keeps w -> careful w o -> keeps (match step w o with Ok (_, w') => w' | _ => w end).
Proof. intros w o K C. destruct (step w o) as [[r w']| | |] eqn:E; auto. eapply keeps_S; eauto. Qed.
Ltac next o := match goal with K : keeps ?w |- _ =>
  let C := fresh in assert (C : careful w o) by (try exact Logic.I; eexists _, _; (split; [reflexivity|]); (split; [reflexivity|]); cbn [mQ In]; intuition discriminate);
  let K' := fresh in assert (K' := keeps_next w o K C); clear C K; vm_compute in K' end.
Example seven_keeps : exists rs w, run world0 seven = Ok (rs, w) /\ keeps w /\ length (mQ w) = 7.
Proof.
  eexists _, _. split; [vm_compute; reflexivity|]. split; [|reflexivity]. pose proof keeps_0 as K. unfold world0 in K.
  next (Make 5). next (Make 3). next (Make 8). next (Make 1). next (Make 9). next (Make 2). next (Make 7).
  next (Write (Some 0)). next (Write (Some 1)). next (Write (Some 2)). next (Write (Some 3)). next (Write (Some 4)). next (Write (Some 5)). next (Write (Some 6)).
  assumption.
Qed.
