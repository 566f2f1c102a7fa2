(** C124: a reader that destroys the object once it has the last message. *)
From Verif Require Import Base BaseFacts LastMsgModel.
From Coq Require Import Lia Permutation.
Local Open Scope nat_scope.

(** The reader waits for what is written: as many messages; for a map just the keys written, each once; a semaphore is posted at
    most once, as a second post can be lost. *)
Definition fits (k : kind) (progs : list (list nat)) (wants : list nat) : Prop :=
  match k with
  | Queue => length wants = length (concat progs)
  | Map => NoDup (concat progs) /\ Permutation wants (concat progs)
  | Sem => length wants = length (concat progs) /\ length (concat progs) <= 1
  end.
(** All writers have returned from all their calls. *)
Definition returned (s : state) : Prop := forall i w, nth_error (writers s) i = Some w -> todo w = [].

(** ** Facts *)
Definition pend (w : writer) : list nat := match at_ w with WIdle | WLocked => todo w | _ => tl (todo w) end.
Definition pending (s : state) : list nat := flat_map pend (writers s).
Definition wok (mu : owner) (c : list nat) (u : bool) (i : nat) (w : writer) : Prop :=
  match at_ w with
  | WIdle => mu <> Writer i
  | WLocked => mu = Writer i /\ todo w <> []
  | WPut => mu = Writer i /\ todo w <> [] /\ c <> []
  | WSignalled => mu = Writer i /\ todo w <> [] /\ c <> [] /\ u = true
  | WUnlocked => mu <> Writer i /\ todo w <> [] /\ u = false
  end.
Definition rok (mu : owner) (l : list nat) (r : rstage) : Prop :=
  match r with
  | RIdle => mu <> Reader
  | RLocked => mu = Reader /\ l <> []
  | RAsleep | RWoken => mu <> Reader /\ l <> []
  | RTook => mu = Reader
  | RClosing => mu = Reader /\ l = []
  | RClosed | RDone => mu <> Reader /\ l = []
  end.
Definition closing (r : rstage) : Prop := r = RClosing \/ r = RClosed \/ r = RDone.
Definition to_signal (w : writer) : Prop := at_ w = WPut \/ at_ w = WUnlocked.
Definition kok (k : kind) (all : list nat) : Prop := match k with Map => NoDup all | Sem => length all <= 1 | Queue => True end.
Definition wants_ok (k : kind) (all g l : list nat) : Prop := match k with Map => Permutation all (g ++ l) | _ => length all = length g + length l end.
Record Inv (all : list nat) (s : state) : Prop := I_ {
  i_all : Permutation all (got s ++ contents s ++ pending s);
  i_want : wants_ok (sort s) all (got s) (left s);
  i_kind : kok (sort s) all;
  i_w : forall i w, nth_error (writers s) i = Some w -> wok (mutex s) (contents s) (under (sort s)) i w;
  i_m : forall i, mutex s = Writer i -> i < length (writers s);
  i_r : rok (mutex s) (left s) (stage s);
  i_join : join s = true -> closing (stage s) -> returned s;
  i_dead : dead s = true <-> stage s = RDone;
  i_sleep : stage s = RAsleep -> take (sort s) (hd 0 (left s)) (contents s) = None \/ exists i w, nth_error (writers s) i = Some w /\ to_signal w }.

Lemma pend_upd : forall ws i w w', nth_error ws i = Some w -> Permutation (pend w ++ flat_map pend (upd ws i w')) (pend w' ++ flat_map pend ws).
Proof.
  induction ws as [|a ws IH]; intros i w w' H; destruct i; cbn [nth_error] in H; try discriminate; cbn [upd flat_map].
  - injection H as ->. rewrite !app_assoc. apply Permutation_app_tail. apply Permutation_app_comm.
  - rewrite Permutation_app_swap_app. rewrite (IH i w w' H). apply Permutation_app_swap_app.
Qed.
Lemma is_in_iff : forall x l, is_in x l = true <-> In x l.
Proof.
  intros x l. unfold is_in. rewrite existsb_exists. split.
  - intros (y & I & E). apply Nat.eqb_eq in E. congruence.
  - intros I. exists x. split; auto. apply Nat.eqb_refl.
Qed.
Lemma erase_perm : forall x l, In x l -> Permutation l (x :: erase x l).
Proof.
  induction l as [|y l IH]; intros I; [inversion I|]. cbn [erase]. destruct (Nat.eqb_spec x y) as [->|N]; [reflexivity|].
  destruct I as [->|I]; [contradiction|]. rewrite (IH I) at 1. apply perm_swap.
Qed.
Lemma wants_len : forall k all g l, wants_ok k all g l -> length all = length g + length l.
Proof. intros k all g l H. destruct k; cbn [wants_ok] in H; auto. rewrite (Permutation_length H). apply app_length. Qed.
Lemma all_done : forall all s, Inv all s -> left s = [] -> contents s = [] /\ pending s = [].
Proof.
  intros all s H L. assert (A := Permutation_length (i_all _ _ H)). assert (B := wants_len _ _ _ _ (i_want _ _ H)). rewrite L in B. rewrite !app_length in A. cbn [length] in B.
  split; apply length_zero_iff_nil; lia.
Qed.
Lemma pend_none : forall all s i w, Inv all s -> pending s = [] -> nth_error (writers s) i = Some w -> pend w = [].
Proof.
  intros all s i w H P N. unfold pending in P. apply nth_error_In in N. revert P N. generalize (writers s). induction l as [|a l IH]; intros P N; [inversion N|].
  cbn [flat_map] in P. apply app_eq_nil in P. destruct P as [P1 P2]. destruct N as [->|N]; auto.
Qed.
Lemma done_returned : forall all s, Inv all s -> left s = [] -> under (sort s) = true -> returned s.
Proof.
  intros all s H L U i w N. destruct (all_done all s H L) as (C & P). assert (Q := pend_none all s i w H P N). assert (W := i_w _ _ H i w N).
  unfold wok in W. unfold pend in Q. destruct (at_ w); auto.
  - destruct W as (_ & _ & W). contradiction.
  - destruct W as (_ & _ & W & _). contradiction.
  - destruct W as (_ & _ & W). congruence.
Qed.
Lemma finished_iff : forall s, finished s = true <-> returned s.
Proof.
  intros s. unfold finished, returned. rewrite forallb_forall. split.
  - intros H i w N. apply nth_error_In in N. apply H in N. destruct (todo w); [auto|discriminate].
  - intros H w I. apply In_nth_error in I. destruct I as (i & N). rewrite (H i w N). reflexivity.
Qed.
Lemma returned_free : forall all s, Inv all s -> returned s -> forall i, mutex s <> Writer i.
Proof.
  intros all s H F i M. assert (L := i_m _ _ H i M). apply nth_error_Some in L. destruct (nth_error (writers s) i) as [w|] eqn:N; [|congruence].
  assert (W := i_w _ _ H i w N). assert (T := F i w N). unfold wok in W. destruct (at_ w); intuition congruence.
Qed.
Lemma put_perm : forall k all g c m r, kok k all -> Permutation all (g ++ c ++ m :: r) -> Permutation (put k m c) (m :: c).
Proof.
  intros k all g c m r K P. destruct k; cbn [put kok] in *.
  - symmetry. apply Permutation_cons_append.
  - destruct (is_in m c) eqn:I; [|reflexivity]. apply is_in_iff in I. exfalso. apply (Permutation_NoDup P) in K. rewrite app_assoc in K.
    apply NoDup_remove_2 in K. apply K. apply in_or_app. left. apply in_or_app. auto.
  - apply Permutation_length in P. rewrite !app_length in P. cbn [length] in P. destruct c; [reflexivity|]. cbn [length] in P. lia.
Qed.
Lemma take_perm : forall k all g c p want x c', kok k all -> Permutation all (g ++ c ++ p) -> take k want c = Some (x, c') ->
  Permutation c (x :: c') /\ (k = Map -> x = want).
Proof.
  intros k all g c p want x c' K P T. destruct k; cbn [take kok] in *.
  - destruct c; [discriminate|]. injection T as <- <-. split; [reflexivity|discriminate].
  - destruct (is_in want c) eqn:I; [|discriminate]. injection T as <- <-. apply is_in_iff in I. split; [apply erase_perm; auto|auto].
  - destruct c as [|y c]; [discriminate|]. injection T as <- <-. apply Permutation_length in P. rewrite !app_length in P. cbn [length] in P.
    destruct c; [|cbn [length] in P; lia]. split; [reflexivity|discriminate].
Qed.
Lemma nth_upd_cases : forall (ws : list writer) i j w x, nth_error (upd ws i w) j = Some x -> (i = j /\ x = w) \/ (i <> j /\ nth_error ws j = Some x).
Proof.
  intros ws i j w x H. destruct (Nat.eq_dec i j) as [<-|N].
  - destruct (Nat.lt_ge_cases i (length ws)) as [L|L].
    + rewrite nth_error_upd_eq in H by auto. injection H as <-. auto.
    + rewrite (proj2 (nth_error_None _ _)) in H; [discriminate|]. rewrite upd_length. auto.
  - rewrite nth_error_upd_neq in H by auto. auto.
Qed.

Definition good (s : state) : Prop := under (sort s) = true \/ join s = true.
Lemma closed_returned : forall all s, Inv all s -> good s -> closing (stage s) -> returned s.
Proof.
  intros all s H [U|J] C.
  - apply (done_returned all s H); auto. assert (Q := i_r _ _ H). destruct C as [C|[C|C]]; rewrite C in Q; apply Q.
  - apply (i_join _ _ H); auto.
Qed.
Lemma wok_other : forall i j mu mu' c c' u w, i <> j -> wok mu c u j w -> (mu = Writer i \/ mu = Free) -> (mu' = Writer i \/ mu' = Free) -> wok mu' c' u j w.
Proof.
  intros i j mu mu' c c' u w N W M M'. assert (mu <> Writer j) by (destruct M; congruence). assert (mu' <> Writer j) by (destruct M'; congruence).
  unfold wok in *. destruct (at_ w); intuition.
Qed.
Lemma rok_w : forall i mu mu' l r, rok mu l r -> (mu = Writer i \/ mu = Free) -> (mu' = Writer i \/ mu' = Free) -> rok mu' l r.
Proof.
  intros i mu mu' l r W M M'. assert (mu <> Reader) by (destruct M; congruence). assert (mu' <> Reader) by (destruct M'; congruence).
  unfold rok in *. destruct r; intuition.
Qed.
Lemma rok_wake : forall mu l r, rok mu l r -> rok mu l (wake r).
Proof. intros mu l r H. destruct r; exact H. Qed.
Lemma closing_wake : forall r, closing (wake r) -> closing r.
Proof. intros r [H|[H|H]]; destruct r; try discriminate; unfold closing; auto. Qed.

(** What a step of a writer has to keep. *)
Lemma inv_writer : forall all s i w c o w' r, Inv all s -> good s -> nth_error (writers s) i = Some w -> todo w <> [] ->
  Permutation (c ++ pend w') (contents s ++ pend w) ->
  wok o c (under (sort s)) i w' ->
  (forall j x, i <> j -> nth_error (writers s) j = Some x -> wok o c (under (sort s)) j x) ->
  (forall j, o = Writer j -> j = i \/ mutex s = Writer j) ->
  rok o (left s) r -> (closing r -> closing (stage s)) -> (r = RDone <-> stage s = RDone) ->
  (r = RAsleep -> stage s = RAsleep /\ (to_signal w' \/ (c = contents s /\ ~ to_signal w))) ->
  Inv all (setw s c o i w' r).
Proof.
  intros all s i w c o w' r H GD N T P W WO M K CL DN SL. assert (LI : i < length (writers s)) by (apply nth_error_Some; congruence).
  constructor; unfold pending, returned; cbn [setw sort join contents mutex dead writers stage left got].
  - assert (Q := pend_upd (writers s) i w w' N). assert (A := i_all _ _ H). rewrite A. apply Permutation_app_head. unfold pending.
    apply Permutation_app_inv_l with (l := pend w). rewrite (Permutation_app_swap_app (pend w) c). rewrite Q. rewrite !app_assoc.
    apply Permutation_app_tail. rewrite P. apply Permutation_app_comm.
  - apply (i_want _ _ H).
  - apply (i_kind _ _ H).
  - intros j x Q. apply nth_upd_cases in Q. destruct Q as [(<- & ->)|(D & Q)]; auto.
  - intros j Q. rewrite upd_length. destruct (M j Q) as [->|Q']; auto. apply (i_m _ _ H j Q').
  - auto.
  - intros J C. exfalso. apply T. apply (i_join _ _ H J (CL C) i w N).
  - rewrite (i_dead _ _ H). symmetry. auto.
  - intros E. destruct (SL E) as (E' & [S'|(-> & S')]).
    + right. exists i, w'. rewrite nth_error_upd_eq by auto. auto.
    + destruct (i_sleep _ _ H E') as [Q|(j & x & Q1 & Q2)]; [auto|]. right. destruct (Nat.eq_dec i j) as [<-|D]; [congruence|].
      exists j, x. rewrite nth_error_upd_neq by auto. auto.
Qed.
Lemma wstep_inv : forall all s i w, Inv all s -> good s -> nth_error (writers s) i = Some w ->
  wstep s i w = Diverge \/ exists s', wstep s i w = Ok s' /\ Inv all s' /\ good s'.
Proof.
  intros all s i w H GD N. unfold wstep. destruct (todo w) as [|m r] eqn:TD; [auto|]. assert (TN : todo w <> []) by congruence.
  destruct (dead s) eqn:D.
  { exfalso. apply TN. apply (closed_returned all s H GD) with i; auto. right. right. apply (i_dead _ _ H). auto. }
  assert (W := i_w _ _ H i w N). assert (RK := i_r _ _ H).
  assert (PE : Permutation all (got s ++ contents s ++ pending s)) by apply (i_all _ _ H).
  destruct (at_ w) eqn:A; unfold wok in W; rewrite A in W.
  - destruct (mutex s) eqn:M; auto. right. eexists. split; [reflexivity|]. split; [|exact GD].
    apply inv_writer with w; auto.
    + unfold pend. rewrite A, TD. reflexivity.
    + unfold wok. cbn [at_ todo]. split; [auto|discriminate].
    + intros j x NJ Q. apply wok_other with i Free (contents s); auto. rewrite <- M. apply (i_w _ _ H). auto.
    + intros j Q. left. congruence.
    + apply rok_w with i Free; auto.
    + reflexivity.
    + intros E. split; [auto|]. right. split; [auto|]. unfold to_signal. rewrite A. intros [Q|Q]; discriminate.
  - destruct W as (M & _). right. eexists. split; [reflexivity|]. split; [|exact GD].
    assert (PP : Permutation (put (sort s) m (contents s)) (m :: contents s)).
    { assert (Q := pend_upd (writers s) i w (T r WIdle) N). unfold pend at 1 3 in Q. rewrite A, TD in Q. cbn [at_ todo app] in Q.
      apply put_perm with all (got s) (flat_map pend (upd (writers s) i (T r WIdle))); [apply (i_kind _ _ H)|]. rewrite PE. do 2 apply Permutation_app_head.
      unfold pending. symmetry. apply Permutation_app_inv_l with (l := r). rewrite <- Q. cbn [app]. symmetry. apply Permutation_middle. }
    apply inv_writer with w; auto.
    + unfold pend. rewrite A, TD. cbn [at_ todo tl]. rewrite PP. cbn [app]. apply Permutation_middle.
    + unfold wok. cbn [at_ todo]. split; [auto|]. split; [discriminate|]. intros Q. rewrite Q in PP. apply Permutation_nil in PP. discriminate.
    + intros j x NJ Q. apply wok_other with i (mutex s) (contents s); auto. apply (i_w _ _ H). auto.
    + reflexivity.
    + intros E. split; [auto|]. left. left. reflexivity.
  - destruct W as (M & _ & C). destruct (under (sort s)) eqn:U.
    + right. eexists. split; [reflexivity|]. split; [|exact GD]. apply inv_writer with w; auto.
      * unfold pend. rewrite A, TD. reflexivity.
      * unfold wok. cbn [at_ todo]. split; [auto|]. split; [discriminate|]. auto.
      * intros j x NJ Q. apply (i_w _ _ H). auto.
      * apply rok_wake. auto.
      * apply closing_wake.
      * destruct (stage s); cbn [wake]; split; congruence.
      * intros E. destruct (stage s); discriminate.
    + right. eexists. split; [reflexivity|]. split; [|exact GD]. apply inv_writer with w; auto.
      * unfold pend. rewrite A, TD. reflexivity.
      * unfold wok. cbn [at_ todo]. split; [discriminate|]. split; [discriminate|auto].
      * intros j x NJ Q. apply wok_other with i (mutex s) (contents s); auto. apply (i_w _ _ H). auto.
      * discriminate.
      * apply rok_w with i (mutex s); auto.
      * reflexivity.
      * intros E. split; [auto|]. left. right. reflexivity.
  - destruct W as (M & _ & C & U). right. eexists. split; [reflexivity|]. split; [|exact GD]. apply inv_writer with w; auto.
    + unfold pend. rewrite A, TD. reflexivity.
    + unfold wok. cbn [at_]. discriminate.
    + intros j x NJ Q. apply wok_other with i (mutex s) (contents s); auto. apply (i_w _ _ H). auto.
    + discriminate.
    + apply rok_w with i (mutex s); auto.
    + reflexivity.
    + intros E. split; [auto|]. right. split; [auto|]. unfold to_signal. rewrite A. intros [Q|Q]; discriminate.
  - destruct W as (M & _ & U). right. eexists. split; [reflexivity|]. split; [|exact GD]. apply inv_writer with w; auto.
    + unfold pend. rewrite A, TD. reflexivity.
    + intros j x NJ Q. apply (i_w _ _ H). auto.
    + apply rok_wake. auto.
    + apply closing_wake.
    + destruct (stage s); cbn [wake]; split; congruence.
    + intros E. destruct (stage s); discriminate.
Qed.
(** What a step of the reader has to keep. *)
Lemma inv_reader : forall all s c o r l g, Inv all s ->
  Permutation (g ++ c) (got s ++ contents s) -> wants_ok (sort s) all g l ->
  (c = contents s /\ (forall j, o = Writer j <-> mutex s = Writer j) \/ (forall j, mutex s <> Writer j) /\ (forall j, o <> Writer j)) ->
  rok o l r -> (join s = true -> closing r -> returned s) -> r <> RDone -> stage s <> RDone ->
  (r = RAsleep -> take (sort s) (hd 0 l) c = None) -> Inv all (setr s c o r l g).
Proof.
  intros all s c o r l g H P WA M K J N1 N2 SL. constructor; unfold pending, returned; cbn [setr sort join contents mutex dead writers stage left got].
  - rewrite (i_all _ _ H). rewrite !app_assoc. apply Permutation_app_tail. symmetry. auto.
  - auto.
  - apply (i_kind _ _ H).
  - intros i w Q. assert (W := i_w _ _ H i w Q). unfold wok in *. destruct M as [(-> & M)|(M1 & M2)].
    + assert (Mi := M i). destruct (at_ w); intuition.
    + specialize (M1 i). specialize (M2 i). destruct (at_ w); intuition.
  - intros i Q. destruct M as [(_ & M)|(_ & M)]; [|destruct (M i Q)]. apply (i_m _ _ H). apply M. auto.
  - auto.
  - auto.
  - assert (Q := i_dead _ _ H). split; intros E; [|contradiction]. apply Q in E. contradiction.
  - intros E. left. auto.
Qed.
Lemma rstep_inv : forall all s, Inv all s -> good s -> rstep s = Diverge \/ exists s', rstep s = Ok s' /\ Inv all s' /\ good s'.
Proof.
  intros all s H GD. unfold rstep. assert (K := i_r _ _ H). assert (WA := i_want _ _ H).
  assert (LOCK : left s <> [] -> stage s <> RDone -> match mutex s with Free => Ok (setr s (contents s) Reader RLocked (left s) (got s)) | _ => Diverge end = Diverge \/
    exists s', match mutex s with Free => Ok (setr s (contents s) Reader RLocked (left s) (got s)) | _ => Diverge end = Ok s' /\ Inv all s' /\ good s').
  { intros L ND. destruct (mutex s) eqn:M; auto. right. eexists. split; [reflexivity|]. split; [|exact GD]. apply inv_reader; auto; try discriminate.
    - right. split; intros; congruence.
    - split; auto.
    - intros _ [C|[C|C]]; discriminate. }
  destruct (stage s) eqn:ST; cbn [rok] in K.
  - destruct (left s) as [|k l] eqn:LF.
    + destruct (join s && negb (finished s)) eqn:J; [auto|].
      assert (RET : join s = true -> returned s).
      { intros E. rewrite E in J. cbn [andb] in J. apply finished_iff. destruct (finished s); [auto|discriminate]. }
      destruct (all_done all s H LF) as (C0 & _).
      assert (CLR : match mutex s with Free => Ok (setr s [] Reader RClosing [] (got s)) | _ => Diverge end = Diverge \/
        exists s', match mutex s with Free => Ok (setr s [] Reader RClosing [] (got s)) | _ => Diverge end = Ok s' /\ Inv all s' /\ good s').
      { destruct (mutex s) eqn:M; auto. right. eexists. split; [reflexivity|]. split; [|exact GD]. apply inv_reader; auto; try discriminate.
        - rewrite C0. reflexivity.
        - right. split; intros; congruence.
        - split; auto.
        - congruence. }
      destruct (sort s) eqn:SO; auto. right. eexists. split; [reflexivity|]. split; [|exact GD]. apply inv_reader; auto; try discriminate; try (rewrite SO; auto).
      * left. split; [auto|]. intros. reflexivity.
      * split; auto.
      * congruence.
    + apply LOCK; discriminate.
  - destruct K as (M & L). destruct (left s) as [|k l] eqn:LF; [contradiction|]. destruct (take (sort s) k (contents s)) as [[x c]|] eqn:TK.
    + right. eexists. split; [reflexivity|]. split; [|exact GD]. destruct (take_perm _ _ _ _ _ _ _ _ (i_kind _ _ H) (i_all _ _ H) TK) as (P & PX).
      apply inv_reader; auto; try discriminate.
      * rewrite P. rewrite <- app_assoc. reflexivity.
      * destruct (sort s) eqn:SO; cbn [wants_ok] in *; rewrite ?app_length; cbn [length] in *; try lia. rewrite (PX eq_refl). rewrite <- app_assoc. exact WA.
      * right. split; intros; congruence.
      * intros _ [C|[C|C]]; discriminate.
      * congruence.
    + right. eexists. split; [reflexivity|]. split; [|exact GD]. apply inv_reader; auto; try discriminate.
      * right. split; intros; congruence.
      * split; [discriminate|auto].
      * intros _ [C|[C|C]]; discriminate.
      * congruence.
  - destruct (left s); auto.
  - apply LOCK; [apply K|discriminate].
  - assert (X : exists s', Ok (setr s (contents s) Free RIdle (left s) (got s)) = Ok s' /\ Inv all s' /\ good s').
    { eexists. split; [reflexivity|]. split; [|exact GD]. apply inv_reader; auto; try discriminate.
      * right. split; intros; congruence.
      * intros _ [C|[C|C]]; discriminate.
      * congruence. }
    destruct (left s); auto.
  - destruct K as (M & L). assert (X : exists s', Ok (setr s (contents s) Free RClosed (left s) (got s)) = Ok s' /\ Inv all s' /\ good s').
    { eexists. split; [reflexivity|]. split; [|exact GD]. apply inv_reader; auto; try discriminate.
      * right. split; intros; congruence.
      * split; [discriminate|auto].
      * intros J _. apply (i_join _ _ H J). rewrite ST. left. reflexivity.
      * congruence. }
    destruct (left s); auto.
  - destruct K as (M & L). assert (RT : returned s). { apply (closed_returned all s H GD). rewrite ST. right. left. reflexivity. }
    assert (F := returned_free all s H RT). destruct (mutex s) eqn:MU; [|contradiction|destruct (F i eq_refl)].
    assert (X : exists s', Ok (State (sort s) (join s) (contents s) Free true (writers s) RDone (left s) (got s)) = Ok s' /\ Inv all s' /\ good s').
    { eexists. split; [reflexivity|]. split; [|exact GD]. constructor; unfold pending, returned; cbn [sort join contents mutex dead writers stage left got]; try (apply H; fail).
      - intros i w Q. assert (W := i_w _ _ H i w Q). rewrite MU in W. exact W.
      - discriminate.
      - split; [discriminate|auto].
      - intros _ _. exact RT.
      - split; auto.
      - discriminate. }
    destruct (left s); auto.
  - destruct (left s); auto.
Qed.
Lemma step_inv : forall all s l, Inv all s -> good s -> step s l = Diverge \/ exists s', step s l = Ok s' /\ Inv all s' /\ good s'.
Proof.
  intros all s l H GD. destruct l as [|i|]; cbn [step].
  - apply rstep_inv; auto.
  - destruct (nth_error (writers s) i) as [w|] eqn:N; [|auto]. apply wstep_inv; auto.
  - destruct (stage s) eqn:ST; auto. right. eexists. split; [reflexivity|]. split; [|exact GD]. assert (K := i_r _ _ H). rewrite ST in K. cbn [rok] in K.
    apply inv_reader; auto; try discriminate.
    + apply (i_want _ _ H).
    + left. split; [auto|]. intros. reflexivity.
    + intros _ [C|[C|C]]; discriminate.
    + congruence.
Qed.
Lemma run_inv : forall ls all s, Inv all s -> good s -> run s ls = Diverge \/ exists s', run s ls = Ok s' /\ Inv all s' /\ good s'.
Proof.
  induction ls as [|l ls IH]; intros all s H GD; cbn [run]; [eauto|].
  destruct (step_inv all s l H GD) as [E|(s' & E & H' & G')]; rewrite E; cbn [bind]; [auto|]. apply IH; auto.
Qed.
Lemma inv_start : forall k j progs wants, fits k progs wants -> Inv (concat progs) (start k j progs wants).
Proof.
  intros k j progs wants F. constructor; unfold start, pending, returned; cbn [sort join contents mutex dead writers stage left got app]; try discriminate.
  - rewrite flat_map_concat_map, map_map. unfold pend. cbn [at_ todo]. rewrite map_id. reflexivity.
  - destruct k; cbn [fits wants_ok length app] in *; [lia| |lia]. symmetry. apply F.
  - destruct k; cbn [fits kok] in *; auto; apply F.
  - intros i w N. rewrite nth_error_map in N. destruct (nth_error progs i); [|discriminate]. injection N as <-. unfold wok. cbn [at_]. discriminate.
  - intros _ [C|[C|C]]; discriminate.
  - split; discriminate.
Qed.

(** ** Theorems *)
(** With a map or a semaphore, or if the reader joins the writers first, the reader may destroy the object once it has got all that
    is written: whatever the schedule, nothing undefined happens. *)
Theorem C124_safe : forall k j progs wants ls, fits k progs wants -> k <> Queue \/ j = true -> run (start k j progs wants) ls <> UB.
Proof.
  intros k j progs wants ls F G. assert (GD : good (start k j progs wants)).
  { destruct G as [G|G]; [left|right; exact G]. cbn [start sort]. destruct k; [contradiction| |]; reflexivity. }
  destruct (run_inv ls _ _ (inv_start k j progs wants F) GD) as [E|(s' & E & _)]; rewrite E; discriminate.
Qed.
Print Assumptions C124_safe.

(** When it has been destroyed, the writers have returned from all their calls, and the reader got all that was written. *)
Theorem C124_end : forall k j progs wants ls s, fits k progs wants -> k <> Queue \/ j = true -> run (start k j progs wants) ls = Ok s -> dead s = true ->
  (forall i w, nth_error (writers s) i = Some w -> todo w = []) /\ Permutation (got s) (concat progs).
Proof.
  intros k j progs wants ls s F G E D. assert (GD : good (start k j progs wants)).
  { destruct G as [G|G]; [left|right; exact G]. cbn [start sort]. destruct k; [contradiction| |]; reflexivity. }
  destruct (run_inv ls _ _ (inv_start k j progs wants F) GD) as [E'|(s' & E' & H & GS)]; [congruence|]. assert (s' = s) by congruence. subst s'.
  assert (ST := proj1 (i_dead _ _ H) D). split.
  - apply (closed_returned _ s H GS). right. right. exact ST.
  - assert (L : left s = []). { assert (K := i_r _ _ H). rewrite ST in K. apply K. }
    destruct (all_done _ s H L) as (C & P). assert (Q := i_all _ _ H). rewrite C, P in Q. cbn [app] in Q. rewrite app_nil_r in Q. symmetry. exact Q.
Qed.
Print Assumptions C124_end.

(** And it comes to that: until the object is destroyed some thread can go on, without a wake-up that nobody signalled. *)
Theorem C124_progress : forall k j progs wants ls s, fits k progs wants -> k <> Queue \/ j = true -> run (start k j progs wants) ls = Ok s -> dead s = false ->
  exists l s', l <> Spurious /\ step s l = Ok s'.
Proof.
  intros k j progs wants ls s F G E D. assert (GD : good (start k j progs wants)).
  { destruct G as [G|G]; [left|right; exact G]. cbn [start sort]. destruct k; [contradiction| |]; reflexivity. }
  destruct (run_inv ls _ _ (inv_start k j progs wants F) GD) as [E'|(s' & E' & H & GS)]; [congruence|]. assert (s' = s) by congruence. subst s'.
  generalize dependent (concat progs). intros all H. clear F G E GD E'.
  assert (WR : forall i w, nth_error (writers s) i = Some w -> todo w <> [] -> at_ w <> WIdle \/ mutex s = Free -> exists l s', l <> Spurious /\ step s l = Ok s').
  { intros i w N T Q. exists (L i). cbn [step]. rewrite N. unfold wstep. rewrite D. destruct (todo w); [contradiction|].
    destruct (at_ w); try (eexists; split; [discriminate|reflexivity]).
    - destruct Q as [Q|Q]; [contradiction|]. rewrite Q. eexists. split; [discriminate|reflexivity].
    - destruct (under (sort s)); eexists; (split; [discriminate|reflexivity]). }
  destruct (mutex s) as [| |i] eqn:M.
  - assert (K := i_r _ _ H). rewrite M in K. destruct (finished s) eqn:FI.
    + exists R. cbn [step]. unfold rstep. rewrite M, FI. rewrite andb_false_r.
      destruct (stage s) eqn:ST; cbn [rok] in K; try (exfalso; intuition congruence).
      * destruct (left s); [destruct (sort s)|]; eexists; (split; [discriminate|reflexivity]).
      * exfalso. apply finished_iff in FI. destruct K as (_ & L0). destruct (i_sleep _ _ H ST) as [TK|(i & w & N & TS)].
        -- assert (P0 : pending s = []).
           { unfold pending. assert (X : forall w, In w (writers s) -> pend w = []).
             { intros w I. apply In_nth_error in I. destruct I as (i & N). unfold pend. rewrite (FI i w N). destruct (at_ w); reflexivity. }
             revert X. generalize (writers s). induction l as [|a l IH]; intros X; [reflexivity|]. cbn [flat_map]. rewrite (X a (or_introl eq_refl)). apply IH.
             intros w I. apply X. right. auto. }
           assert (A := i_all _ _ H). rewrite P0, app_nil_r in A. assert (WA := i_want _ _ H). destruct (left s) as [|x l]; [contradiction|]. cbn [hd] in TK.
           assert (LA := Permutation_length A). rewrite app_length in LA.
           destruct (sort s); cbn [take wants_ok] in *.
           ++ destruct (contents s); [|discriminate]. cbn [length] in *. lia.
           ++ destruct (is_in x (contents s)) eqn:I; [discriminate|]. assert (PC : Permutation (contents s) (x :: l)).
              { apply Permutation_app_inv_l with (l := got s). rewrite <- A. exact WA. }
              assert (IX : In x (contents s)) by (eapply Permutation_in; [symmetry; eauto|left; reflexivity]). apply is_in_iff in IX. congruence.
           ++ destruct (contents s); [|discriminate]. cbn [length] in *. lia.
        -- assert (W := i_w _ _ H i w N). assert (T := FI i w N). unfold wok in W. destruct TS as [TS|TS]; rewrite TS in W; intuition.
      * destruct (left s); eexists; (split; [discriminate|reflexivity]).
      * destruct (left s); eexists; (split; [discriminate|reflexivity]).
      * exfalso. apply (proj2 (i_dead _ _ H)) in ST. congruence.
    + assert (X : exists i w, nth_error (writers s) i = Some w /\ todo w <> []).
      { unfold finished in FI. clear - FI. induction (writers s) as [|a l IH]; [discriminate|]. cbn [forallb] in FI. destruct (todo a) as [|x t] eqn:T.
        - destruct (IH FI) as (i & w & A & B). exists (S i), w. auto.
        - exists 0, a. split; [reflexivity|congruence]. }
      destruct X as (i & w & N & T). apply (WR i w N T). auto.
  - exists R. cbn [step]. unfold rstep. assert (K := i_r _ _ H). rewrite M in K. destruct (stage s) eqn:ST; cbn [rok] in K; try (exfalso; intuition congruence).
    + destruct K as (_ & L0). destruct (left s) as [|x l]; [contradiction|]. destruct (take (sort s) x (contents s)) as [[y c]|]; eexists; (split; [discriminate|reflexivity]).
    + destruct (left s); eexists; (split; [discriminate|reflexivity]).
    + destruct (left s); eexists; (split; [discriminate|reflexivity]).
  - assert (LI := i_m _ _ H i M). apply nth_error_Some in LI. destruct (nth_error (writers s) i) as [w|] eqn:N; [|congruence].
    assert (W := i_w _ _ H i w N). rewrite M in W. unfold wok in W. apply (WR i w N); destruct (at_ w); try (left; discriminate); intuition.
Qed.
Print Assumptions C124_progress.

(** With a queue the last write signals once it has unlocked the mutex: a reader that has got the last message and destroys the queue can
    be first, and the writer signals through an object that is gone, whatever was written before. *)
Theorem C124_last_refuted : forall ms m, exists ls, run (start Queue false [ms ++ [m]] (ms ++ [m])) ls = UB.
Proof.
  enough (G : forall ms m g, exists ls, run (State Queue false [] Free false [T (ms ++ [m]) WIdle] RIdle (ms ++ [m]) g) ls = UB).
  { intros ms m. apply (G ms m []). }
  induction ms as [|x ms IH]; intros m g.
  - exists [L 0; L 0; L 0; R; R; R; R; R; R; L 0]. reflexivity.
  - destruct (IH m (g ++ [x])) as (ls & E). exists ([L 0; L 0; L 0; L 0; R; R; R] ++ ls). cbn [app]. destruct (ms ++ [m]) eqn:Q; [destruct ms; discriminate|].
    exact E.
Qed.
Print Assumptions C124_last_refuted.

(** ** Examples *)
Example map_run : exists s,
  run (start Map false [[3]; [5]] [5; 3]) [R; R; L 1; L 1; L 1; L 1; R; R; R; L 0; L 0; L 0; L 0; R; R; R; R; R; R] = Ok s /\ dead s = true /\ got s = [5; 3].
Proof. eexists. split; [vm_compute; reflexivity|]. repeat split. Qed.
Example sem_run : exists s, run (start Sem false [[0]; []] [0]) [R; R; L 0; L 0; L 0; L 0; R; R; R; R; R] = Ok s /\ dead s = true.
Proof. eexists. split; [vm_compute; reflexivity|]. repeat split. Qed.
Example join_run : exists s, run (start Queue true [[1; 2]] [7; 8]) [L 0; L 0; L 0; R; R; R; L 0; L 0; L 0; L 0; R; R; R; L 0; R; R; R] = Ok s /\ dead s = true /\ got s = [1; 2].
Proof. eexists. split; [vm_compute; reflexivity|]. repeat split. Qed.
