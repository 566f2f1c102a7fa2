(** C123: copies of socket objects, and descriptors used after they were closed. *)
From Verif Require Import Base BaseFacts SockCopyModel.
From Coq Require Import Lia.
Local Open Scope nat_scope.

(** What a program does to its sockets, without descriptors: the socket each object stands for ([None] once destroyed), the
    sockets released (one of their objects closed or destroyed), the files of other code closed, how many files are open
    now and were at most. *)
Record ghost := G { sockets : nat; org : list (option nat); released : list nat; files : nat; gone : list nat; now : nat; peak : nat }.
Definition ghost0 : ghost := G 0 [] [] 0 [] 0 0.
Definition is_in (x : nat) (l : list nat) : bool := existsb (Nat.eqb x) l.
Definition of_ (g : ghost) (i : nat) : option nat := match nth_error (org g) i with Some (Some s) => Some s | _ => None end.
(** The rule: objects are used while they exist, every socket is released at most once, other code closes its files at
    most once. *)
Definition gstep (g : ghost) (o : op) : option ghost :=
  match o with
  | New => Some (G (S (sockets g)) (org g ++ [Some (sockets g)]) (released g) (files g) (gone g) (S (now g)) (Nat.max (peak g) (S (now g))))
  | Copy i => match of_ g i with Some s => Some (G (sockets g) (org g ++ [Some s]) (released g) (files g) (gone g) (now g) (peak g)) | None => None end
  | Assign i j => match of_ g i, of_ g j with Some _, Some s => Some (G (sockets g) (upd (org g) i (Some s)) (released g) (files g) (gone g) (now g) (peak g)) | _, _ => None end
  | Use i | Select i => match of_ g i with Some _ => Some g | None => None end
  | Close i => match of_ g i with Some s => if is_in s (released g) then None else Some (G (sockets g) (org g) (s :: released g) (files g) (gone g) (now g - 1) (peak g)) | None => None end
  | Destroy i => match of_ g i with Some s => if is_in s (released g) then None else Some (G (sockets g) (upd (org g) i None) (s :: released g) (files g) (gone g) (now g - 1) (peak g)) | None => None end
  | OtherOpen => Some (G (sockets g) (org g) (released g) (S (files g)) (gone g) (S (now g)) (Nat.max (peak g) (S (now g))))
  | OtherUse k => if (k <? files g) && negb (is_in k (gone g)) then Some g else None
  | OtherClose k => if (k <? files g) && negb (is_in k (gone g)) then Some (G (sockets g) (org g) (released g) (files g) (k :: gone g) (now g - 1) (peak g)) else None
  end.
Fixpoint grun (g : ghost) (os : list op) : option ghost :=
  match os with [] => Some g | o :: os => match gstep g o with Some g' => grun g' os | None => None end end.
(** What each call should do. *)
Definition answers (g : ghost) (o : op) (r : out) : Prop :=
  match o with
  | Use i | Select i => exists s f, of_ g i = Some s /\ r = Through f /\ (~ In s (released g) <-> f = Some (Sock s))
  | Close i | Destroy i => exists s, of_ g i = Some s /\ r = Closed (Some (Sock s))
  | OtherUse k => r = Through (Some (File k))
  | OtherClose k => r = Closed (Some (File k))
  | _ => r = Unit
  end.

(** ** Facts *)
Lemma is_in_iff : forall x l, is_in x l = true <-> In x l.
Proof.
  intros x l. unfold is_in. rewrite existsb_exists. split.
  - intros (y & I & E). apply Nat.eqb_eq in E. congruence.
  - intros I. exists x. split; auto. apply Nat.eqb_refl.
Qed.
Fixpoint count (t : list (option file)) : nat := match t with [] => 0 | Some _ :: t => S (count t) | None :: t => count t end.
Lemma lowest_count : forall t, lowest t <= count t.
Proof. induction t as [|[f|] t IH]; cbn [lowest count]; lia. Qed.
Lemma lowest_len : forall t, lowest t <= length t.
Proof. induction t as [|[f|] t IH]; cbn [lowest length]; lia. Qed.
Lemma lowest_free : forall t, under t (lowest t) = None.
Proof.
  unfold under. induction t as [|[f|] t IH]; cbn [lowest nth_error]; auto.
Qed.
Lemma under_install : forall t f fd, under (install t f) fd = if fd =? lowest t then Some f else under t fd.
Proof.
  intros t f fd. unfold install, under. assert (L := lowest_len t). destruct (Nat.ltb_spec (lowest t) (length t)) as [Q|Q].
  - destruct (Nat.eqb_spec fd (lowest t)) as [->|N].
    + rewrite nth_error_upd_eq; auto.
    + rewrite nth_error_upd_neq; auto.
  - replace (lowest t) with (length t) by lia. destruct (Nat.eqb_spec fd (length t)) as [->|N].
    + rewrite nth_error_app2 by lia. rewrite Nat.sub_diag. reflexivity.
    + destruct (Nat.lt_ge_cases fd (length t)).
      * rewrite nth_error_app1 by auto. reflexivity.
      * rewrite !(proj2 (nth_error_None _ _)); auto. rewrite app_length. cbn [length]. lia.
Qed.
Lemma count_app : forall t f, count (t ++ [Some f]) = S (count t).
Proof. induction t as [|[g|] t IH]; intros; cbn [count app]; rewrite ?IH; reflexivity. Qed.
Lemma count_install : forall t f, count (install t f) = S (count t).
Proof.
  intros t f. unfold install. destruct (Nat.ltb_spec (lowest t) (length t)) as [Q|Q]; [|apply count_app].
  induction t as [|[g|] t IH]; cbn [lowest length] in *; [lia| |].
  - cbn [upd count]. rewrite IH by lia. reflexivity.
  - reflexivity.
Qed.
Lemma under_close : forall t a fd, under (close t a) fd = if fd =? a then None else under t fd.
Proof.
  intros t a fd. unfold close, under. destruct (Nat.eqb_spec fd a) as [->|N].
  - destruct (Nat.lt_ge_cases a (length t)). { rewrite nth_error_upd_eq; auto. }
    rewrite (proj2 (nth_error_None _ _)); auto. rewrite upd_length. auto.
  - rewrite nth_error_upd_neq; auto.
Qed.
Lemma count_close : forall t a f, under t a = Some f -> count (close t a) = count t - 1.
Proof.
  unfold under, close. induction t as [|x t IH]; intros a f H; destruct a; cbn [nth_error] in H; try discriminate.
  - subst x. cbn [upd count]. lia.
  - cbn [upd count]. destruct x; rewrite (IH a f H); [|reflexivity].
    enough (0 < count t) by lia. clear - H. revert a H. induction t as [|[y|] t IH]; intros a H; destruct a; cbn [nth_error] in H; try discriminate; cbn [count]; try lia.
    eapply IH; eauto.
Qed.
Lemma of_some : forall g i s, of_ g i = Some s <-> nth_error (org g) i = Some (Some s).
Proof. intros g i s. unfold of_. destruct (nth_error (org g) i) as [[x|]|]; split; congruence. Qed.

(** The ghost and the process go together. *)
Record rel (g : ghost) (w : world) : Prop := R {
  r_len : length (objects w) = length (org g);
  r_obj : forall i s, nth_error (org g) i = Some (Some s) -> s < sockets g /\ exists fd, nth_error (objects w) i = Some (Some fd) /\ fd < peak g /\
            (~ In s (released g) -> under (table w) fd = Some (Sock s));
  r_inj : forall a b f, under (table w) a = Some f -> under (table w) b = Some f -> a = b;
  r_sock : forall a s, under (table w) a = Some (Sock s) -> s < sockets g /\ ~ In s (released g);
  r_file : forall a k, under (table w) a = Some (File k) -> k < files g /\ ~ In k (gone g);
  r_open : forall s, s < sockets g -> ~ In s (released g) -> exists a, under (table w) a = Some (Sock s);
  r_oth : length (others w) = files g;
  r_other : forall k, k < files g -> ~ In k (gone g) -> exists fd, nth_error (others w) k = Some fd /\ under (table w) fd = Some (File k);
  r_made : made w = sockets g;
  r_count : count (table w) = now g;
  r_peak : now g <= peak g;
  r_rel : forall s, In s (released g) -> s < sockets g;
  r_gone : forall k, In k (gone g) -> k < files g }.

Lemma rel_0 : rel ghost0 world0.
Proof.
  assert (E : forall fd, under [] fd = None) by (intros []; reflexivity).
  constructor; cbn [ghost0 world0 sockets org released files gone now peak table objects others made count length]; auto; try lia; intros;
    rewrite ?E in *; try discriminate.
  - destruct i; discriminate.
  - contradiction.
  - contradiction.
Qed.
Lemma rel_release : forall g w i s fd org' obj', rel g w -> nth_error (org g) i = Some (Some s) -> nth_error (objects w) i = Some (Some fd) ->
  ~ In s (released g) -> length obj' = length org' ->
  (forall j t, nth_error org' j = Some (Some t) -> nth_error (org g) j = Some (Some t) /\ nth_error obj' j = nth_error (objects w) j) ->
  under (table w) fd = Some (Sock s) /\ rel (G (sockets g) org' (s :: released g) (files g) (gone g) (now g - 1) (peak g)) (W (close (table w) fd) obj' (others w) (made w)).
Proof.
  intros g w i s fd org' obj' H O B N L K. destruct (r_obj g w H i s O) as (LS & fd' & B' & P & U).
  assert (fd' = fd) by congruence. subst fd'. specialize (U N). split; [exact U|].
  assert (X : forall a f, under (table w) a = Some f -> f <> Sock s -> under (close (table w) fd) a = Some f).
  { intros a f A F. rewrite under_close. destruct (Nat.eqb_spec a fd) as [->|]; congruence. }
  constructor; cbn [sockets org released files gone now peak table objects others made]; auto.
  - intros j t J. destruct (K j t J) as (J1 & J2). destruct (r_obj g w H j t J1) as (T & b & B2 & P2 & U2). split; [auto|].
    exists b. rewrite J2. split; [auto|]. split; [auto|]. intros NT. apply X.
    + apply U2. intros Q. apply NT. right. auto.
    + intros Q. injection Q as ->. apply NT. left. reflexivity.
  - intros a b f. rewrite !under_close. destruct (a =? fd), (b =? fd); try discriminate. apply (r_inj g w H).
  - intros a t. rewrite under_close. destruct (Nat.eqb_spec a fd) as [->|NE]; [discriminate|]. intros Q. destruct (r_sock g w H a t Q) as (Q1 & Q2).
    split; [auto|]. intros [<-|Q3]; [|auto]. apply NE. eapply (r_inj g w H); eauto.
  - intros a k. rewrite under_close. destruct (a =? fd); [discriminate|]. apply (r_file g w H).
  - intros t LT NT. destruct (r_open g w H t) as (a & A); auto. { intros Q. apply NT. right. auto. }
    exists a. apply X; auto. intros Q. injection Q as ->. apply NT. left. reflexivity.
  - apply (r_oth g w H).
  - intros k LK NK. destruct (r_other g w H k LK NK) as (b & B2 & U2). exists b. split; [auto|]. apply X; auto. discriminate.
  - apply (r_made g w H).
  - rewrite (count_close _ _ _ U), (r_count g w H). reflexivity.
  - assert (Q := r_peak g w H). lia.
  - intros t [<-|I]; auto. apply (r_rel g w H). auto.
  - apply (r_gone g w H).
Qed.
Lemma step_rel : forall g w o g', rel g w -> gstep g o = Some g' -> peak g' <= FD_SETSIZE -> exists r w', step w o = Ok (r, w') /\ rel g' w' /\ answers g o r.
Proof.
  intros g w o g' H E P. destruct o; cbn [gstep] in E.
  - injection E as <-. eexists _, _. split; [reflexivity|]. split; [|reflexivity].
    assert (LC := lowest_count (table w)). rewrite (r_count g w H) in LC. rewrite (r_made g w H).
    constructor; cbn [sockets org released files gone now peak table objects others made].
    + rewrite !app_length, (r_len g w H). reflexivity.
    + intros i s. destruct (Nat.lt_ge_cases i (length (org g))) as [Q|Q].
      * rewrite nth_error_app1 by auto. intros A. destruct (r_obj g w H i s A) as (S1 & fd & B & F & U). split; [lia|]. exists fd.
        rewrite nth_error_app1 by (rewrite (r_len g w H); auto). split; [auto|]. split; [lia|]. intros N. specialize (U N). rewrite under_install.
        destruct (Nat.eqb_spec fd (lowest (table w))) as [->|]; [|auto]. rewrite lowest_free in U. discriminate.
      * rewrite nth_error_app2 by auto. destruct (i - length (org g)) as [|[|]] eqn:D; try discriminate. cbn [nth_error]. intros A. injection A as <-.
        split; [lia|]. exists (lowest (table w)). rewrite nth_error_app2 by (rewrite (r_len g w H); auto). rewrite (r_len g w H), D. split; [reflexivity|].
        split; [lia|]. intros _. rewrite under_install, Nat.eqb_refl. reflexivity.
    + intros a b f. rewrite !under_install. destruct (Nat.eqb_spec a (lowest (table w))) as [->|A]; destruct (Nat.eqb_spec b (lowest (table w))) as [->|B]; auto.
      * intros Q1 Q2. injection Q1 as <-. destruct (r_sock g w H _ _ Q2). lia.
      * intros Q1 Q2. injection Q2 as <-. destruct (r_sock g w H _ _ Q1). lia.
      * apply (r_inj g w H).
    + intros a s. rewrite under_install. destruct (a =? lowest (table w)).
      * intros Q. injection Q as <-. split; [lia|]. intros I. apply (r_rel g w H) in I. lia.
      * intros Q. destruct (r_sock g w H _ _ Q). split; [lia|auto].
    + intros a k. rewrite under_install. destruct (a =? lowest (table w)); [discriminate|]. apply (r_file g w H).
    + intros s LS NS. destruct (Nat.eq_dec s (sockets g)) as [->|D].
      * exists (lowest (table w)). rewrite under_install, Nat.eqb_refl. reflexivity.
      * destruct (r_open g w H s) as (a & A); [lia|auto|]. exists a. rewrite under_install. destruct (Nat.eqb_spec a (lowest (table w))) as [->|]; [|auto].
        rewrite lowest_free in A. discriminate.
    + apply (r_oth g w H).
    + intros k LK NK. destruct (r_other g w H k LK NK) as (fd & A & B). exists fd. split; [auto|]. rewrite under_install.
      destruct (Nat.eqb_spec fd (lowest (table w))) as [->|]; [|auto]. rewrite lowest_free in B. discriminate.
    + reflexivity.
    + rewrite count_install, (r_count g w H). reflexivity.
    + lia.
    + intros s I. apply (r_rel g w H) in I. lia.
    + apply (r_gone g w H).
  - destruct (of_ g i) as [s|] eqn:O; [|discriminate]. injection E as <-. apply of_some in O. destruct (r_obj g w H i s O) as (S1 & fd & B & F & U).
    cbn [step]. unfold fd_of. rewrite B. cbn [bind]. eexists _, _. split; [reflexivity|]. split; [|reflexivity].
    destruct H. constructor; cbn [sockets org released files gone now peak table objects others made]; auto.
    + rewrite !app_length, r_len0. reflexivity.
    + intros j t. destruct (Nat.lt_ge_cases j (length (org g))) as [Q|Q].
      * rewrite !nth_error_app1 by (rewrite ?r_len0; auto). apply r_obj0.
      * rewrite !nth_error_app2 by (rewrite ?r_len0; auto). rewrite r_len0. destruct (j - length (org g)) as [|[|]]; try discriminate. cbn [nth_error].
        intros A. injection A as <-. split; [auto|]. exists fd. auto.
  - destruct (of_ g i) as [si|] eqn:O; [|discriminate]. destruct (of_ g j) as [s|] eqn:OJ; [|discriminate]. injection E as <-.
    apply of_some in O. apply of_some in OJ. destruct (r_obj g w H i si O) as (_ & fi & Bi & _). destruct (r_obj g w H j s OJ) as (S1 & fd & B & F & U).
    cbn [step]. unfold fd_of. rewrite Bi. cbn [bind]. rewrite B. cbn [bind]. eexists _, _. split; [reflexivity|]. split; [|reflexivity].
    assert (LI : i < length (org g)) by (apply nth_error_Some; congruence).
    destruct H. constructor; cbn [sockets org released files gone now peak table objects others made]; auto.
    + rewrite !upd_length. auto.
    + intros k t. destruct (Nat.eq_dec i k) as [<-|D].
      * rewrite !nth_error_upd_eq by (rewrite ?r_len0; auto). intros A. injection A as <-. split; [auto|]. exists fd. auto.
      * rewrite !nth_error_upd_neq by auto. apply r_obj0.
  - destruct (of_ g i) as [s|] eqn:O; [|discriminate]. injection E as <-. assert (O' := O). apply of_some in O. destruct (r_obj g w H i s O) as (S1 & fd & B & F & U).
    cbn [step answers]. unfold fd_of. rewrite B. cbn [bind]. eexists _, _. split; [reflexivity|]. split; [auto|]. exists s, (under (table w) fd). split; [auto|].
    split; [reflexivity|]. split; [auto|]. intros Q. apply (r_sock g w H) in Q. apply Q.
  - destruct (of_ g i) as [s|] eqn:O; [|discriminate]. injection E as <-. assert (O' := O). apply of_some in O. destruct (r_obj g w H i s O) as (S1 & fd & B & F & U).
    cbn [step answers]. unfold fd_of. rewrite B. cbn [bind]. replace (fd <? FD_SETSIZE) with true by (symmetry; apply Nat.ltb_lt; lia).
    eexists _, _. split; [reflexivity|]. split; [auto|]. exists s, (under (table w) fd). split; [auto|].
    split; [reflexivity|]. split; [auto|]. intros Q. apply (r_sock g w H) in Q. apply Q.
  - destruct (of_ g i) as [s|] eqn:O; [|discriminate]. destruct (is_in s (released g)) eqn:I; [discriminate|]. injection E as <-.
    assert (N : ~ In s (released g)) by (rewrite <- is_in_iff; congruence).
    assert (O' := O). apply of_some in O. destruct (r_obj g w H i s O) as (S1 & fd & B & F & U).
    destruct (rel_release g w i s fd (org g) (objects w) H O B N (r_len g w H)) as (A1 & A2). { auto. }
    cbn [step answers]. unfold fd_of. rewrite B. cbn [bind]. rewrite A1. eexists _, _. split; [reflexivity|]. split; [exact A2|]. exists s. auto.
  - destruct (of_ g i) as [s|] eqn:O; [|discriminate]. destruct (is_in s (released g)) eqn:I; [discriminate|]. injection E as <-.
    assert (N : ~ In s (released g)) by (rewrite <- is_in_iff; congruence).
    assert (O' := O). apply of_some in O. destruct (r_obj g w H i s O) as (S1 & fd & B & F & U).
    destruct (rel_release g w i s fd (upd (org g) i None) (upd (objects w) i None) H O B N) as (A1 & A2).
    { rewrite !upd_length. apply (r_len g w H). }
    { intros j t J. destruct (Nat.eq_dec i j) as [<-|D].
      - rewrite nth_error_upd_eq in J by (apply nth_error_Some; congruence). discriminate.
      - rewrite nth_error_upd_neq in J by auto. rewrite nth_error_upd_neq by auto. auto. }
    cbn [step answers]. unfold fd_of. rewrite B. cbn [bind]. rewrite A1. eexists _, _. split; [reflexivity|]. split; [exact A2|]. exists s. auto.
  - injection E as <-. eexists _, _. split; [reflexivity|]. split; [|reflexivity].
    assert (LC := lowest_count (table w)). rewrite (r_count g w H) in LC. rewrite (r_oth g w H).
    assert (X : forall a f, under (table w) a = Some f -> under (install (table w) (File (files g))) a = Some f).
    { intros a f A. rewrite under_install. destruct (Nat.eqb_spec a (lowest (table w))) as [->|]; [|auto]. rewrite lowest_free in A. discriminate. }
    constructor; cbn [sockets org released files gone now peak table objects others made].
    + apply (r_len g w H).
    + intros i s A. destruct (r_obj g w H i s A) as (S1 & fd & B & F & U). split; [lia|]. exists fd. split; [auto|]. split; [lia|]. auto.
    + intros a b f. rewrite !under_install. destruct (Nat.eqb_spec a (lowest (table w))) as [->|A]; destruct (Nat.eqb_spec b (lowest (table w))) as [->|B]; auto.
      * intros Q1 Q2. injection Q1 as <-. destruct (r_file g w H _ _ Q2). lia.
      * intros Q1 Q2. injection Q2 as <-. destruct (r_file g w H _ _ Q1). lia.
      * apply (r_inj g w H).
    + intros a s. rewrite under_install. destruct (a =? lowest (table w)); [discriminate|]. apply (r_sock g w H).
    + intros a k. rewrite under_install. destruct (a =? lowest (table w)).
      * intros Q. injection Q as <-. split; [lia|]. intros I. apply (r_gone g w H) in I. lia.
      * intros Q. destruct (r_file g w H _ _ Q). split; [lia|auto].
    + intros s LS NS. destruct (r_open g w H s) as (a & A); auto. exists a. auto.
    + rewrite app_length, (r_oth g w H). cbn [length]. lia.
    + intros k LK NK. destruct (Nat.eq_dec k (files g)) as [->|D].
      * exists (lowest (table w)). rewrite nth_error_app2 by (rewrite (r_oth g w H); auto). rewrite (r_oth g w H), Nat.sub_diag. split; [reflexivity|].
        rewrite under_install, Nat.eqb_refl. reflexivity.
      * destruct (r_other g w H k) as (fd & A & B); [lia|auto|]. exists fd. rewrite nth_error_app1 by (rewrite (r_oth g w H); lia). auto.
    + apply (r_made g w H).
    + rewrite count_install, (r_count g w H). reflexivity.
    + lia.
    + apply (r_rel g w H).
    + intros k I. apply (r_gone g w H) in I. lia.
  - destruct ((k <? files g) && negb (is_in k (gone g))) eqn:Q; [|discriminate]. injection E as <-. apply andb_prop in Q. destruct Q as [Q1 Q2].
    apply Nat.ltb_lt in Q1. assert (N : ~ In k (gone g)) by (rewrite <- is_in_iff; destruct (is_in k (gone g)); [discriminate Q2|congruence]).
    destruct (r_other g w H k Q1 N) as (fd & A & B). cbn [step answers]. unfold other_fd, rd. rewrite A. cbn [bind]. rewrite B.
    eexists _, _. split; [reflexivity|]. auto.
  - destruct ((k <? files g) && negb (is_in k (gone g))) eqn:Q; [|discriminate]. injection E as <-. apply andb_prop in Q. destruct Q as [Q1 Q2].
    apply Nat.ltb_lt in Q1. assert (N : ~ In k (gone g)) by (rewrite <- is_in_iff; destruct (is_in k (gone g)); [discriminate Q2|congruence]).
    destruct (r_other g w H k Q1 N) as (fd & A & B). cbn [step answers]. unfold other_fd, rd. rewrite A. cbn [bind]. rewrite B.
    eexists _, _. split; [reflexivity|]. split; [|reflexivity].
    assert (X : forall a f, under (table w) a = Some f -> f <> File k -> under (close (table w) fd) a = Some f).
    { intros a f C F. rewrite under_close. destruct (Nat.eqb_spec a fd) as [->|]; congruence. }
    constructor; cbn [sockets org released files gone now peak table objects others made].
    + apply (r_len g w H).
    + intros i s C. destruct (r_obj g w H i s C) as (S1 & b & C1 & F & U). split; [auto|]. exists b. split; [auto|]. split; [auto|]. intros M. apply X; auto. discriminate.
    + intros a b f. rewrite !under_close. destruct (a =? fd), (b =? fd); try discriminate. apply (r_inj g w H).
    + intros a s. rewrite under_close. destruct (a =? fd); [discriminate|]. apply (r_sock g w H).
    + intros a j. rewrite under_close. destruct (Nat.eqb_spec a fd) as [->|NE]; [discriminate|]. intros C. destruct (r_file g w H a j C) as (C1 & C2).
      split; [auto|]. intros [<-|C3]; [|auto]. apply NE. eapply (r_inj g w H); eauto.
    + intros s LS NS. destruct (r_open g w H s) as (a & C); auto. exists a. apply X; auto. discriminate.
    + apply (r_oth g w H).
    + intros j LJ NJ. destruct (r_other g w H j) as (b & C1 & C2); auto. { intros C. apply NJ. right. auto. }
      exists b. split; [auto|]. apply X; auto. intros C. injection C as ->. apply NJ. left. reflexivity.
    + apply (r_made g w H).
    + rewrite (count_close _ _ _ B), (r_count g w H). reflexivity.
    + assert (C := r_peak g w H). lia.
    + apply (r_rel g w H).
    + intros j [<-|C]; auto. apply (r_gone g w H). auto.
Qed.
Lemma gstep_peak : forall g o g', gstep g o = Some g' -> peak g <= peak g'.
Proof.
  intros g o g' E. destruct o; cbn [gstep] in E;
    repeat match type of E with match ?x with _ => _ end = _ => destruct x; try discriminate end; injection E as <-; cbn [peak]; lia.
Qed.
Lemma grun_peak : forall os g g', grun g os = Some g' -> peak g <= peak g'.
Proof.
  induction os as [|o os IH]; intros g g' E; cbn [grun] in E. { injection E as <-. lia. }
  destruct (gstep g o) as [g1|] eqn:E1; [|discriminate]. apply gstep_peak in E1. apply IH in E. lia.
Qed.
Lemma run_rel : forall os g w g', rel g w -> grun g os = Some g' -> peak g' <= FD_SETSIZE -> exists rs w', run w os = Ok (rs, w') /\ rel g' w'.
Proof.
  induction os as [|o os IH]; intros g w g' H E P; cbn [grun] in E. { injection E as <-. exists [], w. auto. }
  destruct (gstep g o) as [g1|] eqn:E1; [|discriminate]. assert (Q := grun_peak _ _ _ E).
  destruct (step_rel g w o g1 H E1) as (r & w1 & S & H1 & _); [lia|]. destruct (IH g1 w1 g' H1 E P) as (rs & w' & R' & H').
  exists (r :: rs), w'. cbn [run]. rewrite S. cbn [bind fst snd]. rewrite R'. auto.
Qed.

(** ** Theorems *)
(** In a program that releases every socket at most once and never has more than 1024 files open, copies or not, every call is
    defined. Calls of an object go to its own socket exactly as long as that has not been released through any object; each
    close closes the object's own socket, and other code finds its files as it left them. *)
Theorem C123_own : forall os g o g', grun ghost0 os = Some g -> gstep g o = Some g' -> peak g' <= Z.to_nat 1024 ->
  exists rs w r w', run world0 os = Ok (rs, w) /\ step w o = Ok (r, w') /\ answers g o r.
Proof.
  intros os g o g' E S P. assert (Q := gstep_peak _ _ _ S). destruct (run_rel os ghost0 world0 g rel_0 E) as (rs & w & A & H). { unfold FD_SETSIZE. lia. }
  destruct (step_rel g w o g' H S) as (r & w' & B & _ & C). { unfold FD_SETSIZE. lia. } exists rs, w, r, w'. auto.
Qed.
Print Assumptions C123_own.

(** What is open then: the sockets not released and the files of other code not closed, each under one descriptor. *)
Theorem C123_open : forall os g, grun ghost0 os = Some g -> peak g <= Z.to_nat 1024 -> exists rs w, run world0 os = Ok (rs, w) /\
  (forall s, (exists fd, under (table w) fd = Some (Sock s)) <-> s < sockets g /\ ~ In s (released g)) /\
  (forall k, (exists fd, under (table w) fd = Some (File k)) <-> k < files g /\ ~ In k (gone g)) /\
  (forall fd fd' f, under (table w) fd = Some f -> under (table w) fd' = Some f -> fd = fd').
Proof.
  intros os g E P. destruct (run_rel os ghost0 world0 g rel_0 E) as (rs & w & A & H). { unfold FD_SETSIZE. lia. }
  exists rs, w. split; [auto|]. split; [|split].
  - intros s. split. { intros (fd & U). apply (r_sock g w H fd). auto. } intros (L & N). apply (r_open g w H); auto.
  - intros k. split. { intros (fd & U). apply (r_file g w H fd). auto. } intros (L & N). destruct (r_other g w H k L N) as (fd & _ & U). eauto.
  - apply (r_inj g w H).
Qed.
Print Assumptions C123_open.

(** A copy destroyed closes the descriptor of the original: what the original sends then goes to the next socket opened, and its
    destructor closes that one, or a file of other code. *)
Theorem C123_copy_refuted :
  run world0 [New; Copy 0; Destroy 1; New; Use 0; Destroy 0; Use 2] =
    Ok ([Unit; Unit; Closed (Some (Sock 0)); Unit; Through (Some (Sock 1)); Closed (Some (Sock 1)); Through None], W [None] [None; None; Some 0] [] 2) /\
  run world0 [New; Copy 0; Destroy 1; OtherOpen; Destroy 0; OtherUse 0] =
    Ok ([Unit; Unit; Closed (Some (Sock 0)); Unit; Closed (Some (File 0)); Through None], W [None] [None; None] [0] 1).
Proof. split; reflexivity. Qed.
Print Assumptions C123_copy_refuted.

(** A socket closed by one thread between select and recvfrom of another: if a socket was opened in between, the read takes a
    packet of that one. The program releases nothing twice. *)
Theorem C123_race_refuted : exists w g, let os := [New; Select 0; Close 0; New; Use 0] in
  run world0 os = Ok ([Unit; Through (Some (Sock 0)); Closed (Some (Sock 0)); Unit; Through (Some (Sock 1))], w) /\ grun ghost0 os = Some g.
Proof. eexists _, _. split; reflexivity. Qed.
Print Assumptions C123_race_refuted.

(** Assignment loses the socket of the object assigned to: if no other object stands for it, it stays open whatever the program
    does from then on. *)
Lemma grun_app : forall a b g, grun g (a ++ b) = match grun g a with Some g' => grun g' b | None => None end.
Proof. induction a as [|o a IH]; intros b g; cbn [grun app]; [reflexivity|]. destruct (gstep g o); auto. Qed.
Definition lost (s : nat) (g : ghost) : Prop := s < sockets g /\ ~ In s (released g) /\ forall i, of_ g i <> Some s.
Lemma lost_step : forall s g o g', lost s g -> gstep g o = Some g' -> lost s g'.
Proof.
  intros s g o g' (L & N & A) E. assert (A' : forall i, nth_error (org g) i <> Some (Some s)) by (intros i Q; apply (A i); apply of_some; auto).
  assert (B : forall l x, (forall i, nth_error l i <> Some (Some s)) -> x <> Some s -> forall i, nth_error (l ++ [x]) i <> Some (Some s)).
  { intros l x F X i. destruct (Nat.lt_ge_cases i (length l)). { rewrite nth_error_app1 by auto. apply F. }
    rewrite nth_error_app2 by auto. destruct (i - length l) as [|[|]]; cbn [nth_error]; congruence. }
  assert (C : forall l j x, (forall i, nth_error l i <> Some (Some s)) -> x <> Some s -> forall i, nth_error (upd l j x) i <> Some (Some s)).
  { intros l j x F X i. destruct (Nat.eq_dec j i) as [<-|D].
    - destruct (Nat.lt_ge_cases j (length l)). { rewrite nth_error_upd_eq by auto. congruence. } rewrite upd_out by auto. apply F.
    - rewrite nth_error_upd_neq by auto. apply F. }
  assert (K : forall g2, sockets g <= sockets g2 -> ~ In s (released g2) -> (forall i, nth_error (org g2) i <> Some (Some s)) -> lost s g2).
  { intros g2 K1 K2 K3. split; [lia|]. split; [auto|]. intros i Q. apply of_some in Q. apply (K3 i Q). }
  destruct o; cbn [gstep] in E; repeat match type of E with match ?x with _ => _ end = _ => destruct x eqn:?; try discriminate end; injection E as <-;
    apply K; cbn [sockets released org]; auto; try lia;
    try (apply B; auto; intros Q; injection Q as Q; lia);
    try (apply B; auto; intros Q; injection Q as ->; eapply A; eauto; fail);
    try (apply C; auto; intros Q; injection Q as ->; eapply A; eauto; fail);
    try (apply C; auto; discriminate);
    try (intros [->|Q]; [eapply A; eauto|auto]).
Qed.
Theorem C123_assign_refuted : exists g, grun ghost0 [New; New; Assign 0 1] = Some g /\
  forall os g', grun g os = Some g' -> peak g' <= Z.to_nat 1024 ->
    exists rs w fd, run world0 ([New; New; Assign 0 1] ++ os) = Ok (rs, w) /\ under (table w) fd = Some (Sock 0).
Proof.
  eexists. split; [reflexivity|]. intros os g' E P. set (g := G _ _ _ _ _ _ _) in E.
  assert (Z : lost 0 g). { split; [cbn; lia|]. split; [intros []|]. intros [|[|[|]]]; discriminate. }
  assert (Y : lost 0 g').
  { revert Z E. generalize g. induction os as [|o os IH]; intros h Z E; cbn [grun] in E. { injection E as <-. auto. }
    destruct (gstep h o) as [h'|] eqn:S; [|discriminate]. eapply IH; [|exact E]. eapply lost_step; eauto. }
  destruct (C123_open ([New; New; Assign 0 1] ++ os) g') as (rs & w & R' & O & _). { rewrite grun_app. exact E. } { auto. }
  destruct Y as (Y1 & Y2 & _). destruct (proj2 (O 0) (conj Y1 Y2)) as (fd & U). exists rs, w, fd. auto.
Qed.
Print Assumptions C123_assign_refuted.

(** read with a timeout on a socket with a descriptor of 1024 or more writes beyond the fd_set. *)
Theorem C123_select_refuted : forall n, Z.to_nat 1024 <= n -> run world0 (repeat New (S n) ++ [Select n]) = UB.
Proof.
  assert (A : forall n, exists rs, run world0 (repeat New n) = Ok (rs, W (map (fun s => Some (Sock s)) (seq 0 n)) (map Some (seq 0 n)) [] n)).
  { assert (LW : forall l : list nat, lowest (map (fun s => Some (Sock s)) l) = length l) by (induction l; cbn [map lowest length]; auto).
    assert (RA : forall a b w, run w (a ++ b) = do r <- run w a; do s <- run (snd r) b; Ok (fst r ++ fst s, snd s)).
    { induction a as [|o a IH]; intros b w; cbn [run app]. { cbn [bind snd fst app]. destruct (run w b) as [[]| | |]; reflexivity. }
      destruct (step w o) as [x| | |]; cbn [bind]; auto. rewrite IH. destruct (run (snd x) a) as [y| | |]; cbn [bind fst snd]; auto.
      destruct (run (snd y) b); reflexivity. }
    induction n as [|n (rs & IH)]. { exists []. reflexivity. }
    replace (repeat New (S n)) with (repeat New n ++ [New]) by (symmetry; apply repeat_cons). rewrite RA, IH. cbn [bind snd fst run step].
    eexists. f_equal. f_equal. cbn [table objects others made]. rewrite LW, seq_length. unfold install. rewrite LW, map_length.
    rewrite Nat.ltb_irrefl. rewrite seq_S, !map_app. reflexivity. }
  intros n L. destruct (A (S n)) as (rs & E). assert (RA : forall a b w x w', run w a = Ok (x, w') -> run w' b = UB -> run w (a ++ b) = UB).
  { induction a as [|o a IH]; intros b w x w' Q1 Q2; cbn [run app] in *. { congruence. }
    destruct (step w o) as [y| | |]; cbn [bind] in *; try discriminate. destruct (run (snd y) a) as [[z1 z2]| | |] eqn:Q; cbn [bind fst snd] in *; try discriminate.
    injection Q1 as <- <-. rewrite (IH b _ _ _ Q Q2). reflexivity. }
  eapply RA; [exact E|]. cbn [run step]. unfold fd_of. cbn [objects]. rewrite nth_error_map. rewrite nth_error_nth' with (d := 0) by (rewrite seq_length; lia).
  rewrite seq_nth by lia. cbn [option_map bind Nat.add]. replace (n <? FD_SETSIZE) with false; [reflexivity|]. symmetry. apply Nat.ltb_ge. unfold FD_SETSIZE. lia.
Qed.
Print Assumptions C123_select_refuted.

(** ** Examples *)
(** Sockets and files in any order: a copy that lives on by new is never destroyed, its original is. *)
Example ordinary : exists g w, let os := [New; OtherOpen; Copy 0; New; Use 1; Destroy 0; OtherOpen; Select 2; OtherUse 1; OtherClose 0; New; Use 3; Use 2] in
  grun ghost0 os = Some g /\ peak g = 3 /\ released g = [0] /\
  run world0 os = Ok ([Unit; Unit; Unit; Unit; Through (Some (Sock 0)); Closed (Some (Sock 0)); Unit; Through (Some (Sock 1)); Through (Some (File 1));
    Closed (Some (File 0)); Unit; Through (Some (Sock 2)); Through (Some (Sock 1))], w).
Proof. eexists _, _. split; [vm_compute; reflexivity|]. split; [reflexivity|]. split; [reflexivity|]. vm_compute. reflexivity. Qed.
