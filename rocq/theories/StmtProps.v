(** Property C71 (statements of the database). *)
From Verif Require Import Base BaseFacts UtilsModel SqlModel StmtModel.
Local Open Scope Z_scope.

(** * What may be observed *)
Definition is_busy (c : Z) : Prop := c = 5 \/ c = 6.
(** At most [n] tries from the [k]-th on: the first that is not busy counts, else the last. *)
Definition tried (f : nat -> Z) (k n : nat) (c : Z) (m : nat) : Prop :=
  (1 <= m <= n)%nat /\ c = f (k + m - 1)%nat /\ (forall j, (j < m - 1)%nat -> is_busy (f (k + j)%nat)) /\ (is_busy c -> m = n).
(** A statement is prepared and stepped once: [None] when it could not be prepared, otherwise the answer. *)
Definition asked (O : oracle) (r : nat) (d d' : db) (o : option Z) : Prop :=
  exists c1 m1, tried (prep O) (nprep d) r c1 m1 /\ nprep d' = (nprep d + m1)%nat /\
  (c1 <> 0 /\ o = None /\ nstep d' = nstep d \/
   c1 = 0 /\ exists c2 m2, tried (stepc O) (nstep d) r c2 m2 /\ o = Some c2 /\ nstep d' = (nstep d + m2)%nat).
(** Open statements are numbered below [fresh], without repetition. *)
Definition wf (d : db) : Prop := NoDup (map fst (open_ d)) /\ Forall (fun e => (fst e < fresh d)%nat) (open_ d).

(** * Statement lists *)
Lemma busy_iff c : busy c = true <-> is_busy c.
Proof. unfold busy, is_busy, SQLITE_BUSY, SQLITE_LOCKED. lia. Qed.
Lemma busy_false c : busy c = false <-> ~ is_busy c.
Proof. rewrite <- busy_iff. destruct (busy c); intuition congruence. Qed.
Lemma set_state_keys : forall l n c, map fst (set_state l n c) = map fst l.
Proof. induction l as [|[m x] t IH]; intros n c; [reflexivity|]. cbn [set_state]. destruct (Nat.eqb_spec m n) as [->|]; [reflexivity|]. cbn [map fst]. rewrite IH. reflexivity. Qed.
Lemma state_set_eq : forall l n c, state_of l n <> None -> state_of (set_state l n c) n = Some c.
Proof.
  induction l as [|[m x] t IH]; intros n c H; [contradiction|]. cbn [state_of set_state] in *. destruct (Nat.eqb m n) eqn:E; cbn [state_of]; rewrite E; [reflexivity|auto].
Qed.
Lemma state_set_neq : forall l n m c, n <> m -> state_of (set_state l n c) m = state_of l m.
Proof.
  induction l as [|[k x] t IH]; intros n m c D; [reflexivity|]. cbn [set_state]. destruct (Nat.eqb_spec k n) as [->|E]; cbn [state_of].
  - destruct (Nat.eqb_spec n m); [contradiction|reflexivity].
  - rewrite IH by exact D. reflexivity.
Qed.
Lemma set_state_id : forall l n c, state_of l n = Some c -> set_state l n c = l.
Proof. induction l as [|[k x] t IH]; intros n c H; [reflexivity|]. cbn [state_of set_state] in *. destruct (Nat.eqb_spec k n) as [->|E]; [congruence|]. rewrite IH; auto. Qed.
Lemma state_in : forall l n c, state_of l n = Some c -> In n (map fst l).
Proof. induction l as [|[k x] t IH]; intros n c H; [discriminate|]. cbn [state_of] in H. cbn [map fst]. destruct (Nat.eqb_spec k n); [left; assumption|right; eauto]. Qed.
Lemma in_state : forall l n, In n (map fst l) -> exists c, state_of l n = Some c.
Proof. induction l as [|[k x] t IH]; intros n H; [destruct H|]. cbn [state_of]. destruct (Nat.eqb_spec k n); [eauto|]. destruct H as [H|H]; [contradiction|auto]. Qed.
Lemma drop_fresh l n c : Forall (fun e => (fst e < n)%nat) l -> drop ((n, c) :: l) n = l.
Proof.
  intros F. unfold drop. cbn [filter fst]. rewrite Nat.eqb_refl. cbn [negb].
  induction F as [|[k x] t H F IH]; [reflexivity|]. cbn [filter fst] in *. destruct (Nat.eqb_spec k n); [lia|]. cbn [negb]. rewrite IH. reflexivity.
Qed.
Lemma drop_in l n m : In m (map fst (drop l n)) <-> In m (map fst l) /\ m <> n.
Proof.
  unfold drop. rewrite !in_map_iff. split.
  - intros (e & <- & I). apply filter_In in I. destruct I as [I E]. destruct (Nat.eqb_spec (fst e) n); [discriminate|]. split; [exists e; auto|assumption].
  - intros [(e & <- & I) D]. exists e. split; [reflexivity|]. apply filter_In. split; [exact I|]. destruct (Nat.eqb_spec (fst e) n); [contradiction|reflexivity].
Qed.
Lemma state_drop : forall l n m, m <> n -> state_of (drop l n) m = state_of l m.
Proof.
  induction l as [|[k x] t IH]; intros n m D; [reflexivity|]. unfold drop. cbn [filter fst]. fold (drop t n).
  destruct (Nat.eqb_spec k n) as [->|E]; cbn [negb state_of].
  - destruct (Nat.eqb_spec n m); [congruence|]. apply IH. exact D.
  - rewrite IH by exact D. reflexivity.
Qed.
Lemma drop_nodup l n : NoDup (map fst l) -> NoDup (map fst (drop l n)).
Proof.
  unfold drop. induction l as [|[k x] t IH]; intros H; [exact H|]. cbn [filter fst map] in *. inversion H as [|? ? H1 H2]; subst.
  destruct (Nat.eqb_spec k n); cbn [negb]; [auto|]. cbn [map fst]. constructor; [|auto].
  intros I. apply (drop_in t n k) in I. exact (H1 (proj1 I)).
Qed.
Lemma keys_forall (P : nat -> Prop) (l : list (nat * Z)) : Forall (fun e => P (fst e)) l <-> Forall P (map fst l).
Proof. rewrite !Forall_forall. split; [intros H x I; apply in_map_iff in I; destruct I as (e & <- & I); exact (H e I)|intros H e I; apply H; apply in_map; exact I]. Qed.

(** * Preparing and running *)
Lemma prepare_loop_spec O : forall r d src p, (1 <= r)%nat ->
  exists c m, tried (prep O) (nprep d) r c m /\
  prepare_loop r O d src p =
    (c, (if c =? 0 then St (fresh d) else Null),
     Db (nprep d + m) (nstep d) (ncol d) (if c =? 0 then (fresh d, 0) :: open_ d else open_ d) (if c =? 0 then S (fresh d) else fresh d)).
Proof.
  induction r as [|r IH]; intros d src p R; [lia|]. cbn [prepare_loop]. unfold prepare_v2, SQLITE_OK. set (c := prep O (nprep d)).
  assert (D : forall p d', (if c =? 0 then (c, St (fresh d), Db (S (nprep d)) (nstep d) (ncol d) ((fresh d, 0) :: open_ d) (S (fresh d)))
     else (c, Null, Db (S (nprep d)) (nstep d) (ncol d) (open_ d) (fresh d))) = (c, p, d') ->
     p = (if c =? 0 then St (fresh d) else Null) /\ d' = Db (nprep d + 1) (nstep d) (ncol d) (if c =? 0 then (fresh d, 0) :: open_ d else open_ d) (if c =? 0 then S (fresh d) else fresh d)).
  { intros p' d' E. rewrite Nat.add_1_r. destruct (c =? 0); injection E as <- <-; auto. }
  destruct (if c =? 0 then _ else _) as [[c' p'] d'] eqn:E.
  assert (C : c' = c) by (destruct (c =? 0); congruence). subst c'. destruct (D p' d' eq_refl) as [-> ->]. clear D.
  destruct (busy c) eqn:B; cbn [negb].
  - assert (N : c <> 0) by (apply busy_iff in B; unfold is_busy in B; lia). replace (c =? 0) with false by lia. destruct r as [|r].
    + cbn [prepare_loop]. exists c, 1%nat. split.
      * unfold tried. split; [lia|]. split; [unfold c; f_equal; lia|]. split; [intros j J; lia|reflexivity].
      * replace (c =? 0) with false by lia. reflexivity.
    + destruct (IH (Db (nprep d + 1) (nstep d) (ncol d) (open_ d) (fresh d)) c Null ltac:(lia)) as (c2 & m & T & ->). cbn [nprep nstep ncol open_ fresh] in *.
      exists c2, (S m). split.
      * destruct T as (T1 & T2 & T3 & T4). unfold tried. split; [lia|]. split; [rewrite T2; f_equal; lia|]. split; [|intros Q; specialize (T4 Q); lia].
        intros j J. destruct j as [|j]; [rewrite Nat.add_0_r; apply busy_iff; exact B|]. replace (nprep d + S j)%nat with (nprep d + 1 + j)%nat by lia. apply T3. lia.
      * do 2 f_equal. lia.
  - exists c, 1%nat. split; [|reflexivity]. apply busy_false in B. unfold tried. split; [lia|]. split; [unfold c; f_equal; lia|]. split; [intros j J; lia|contradiction].
Qed.
Lemma prepare_spec O r d p : (1 <= r)%nat ->
  exists c m, tried (prep O) (nprep d) r c m /\
  prepare_statement r O d p =
    Ok (c, (if c =? 0 then St (fresh d) else Null),
     Db (nprep d + m) (nstep d) (ncol d) (if c =? 0 then (fresh d, 0) :: open_ d else open_ d) (if c =? 0 then S (fresh d) else fresh d)).
Proof.
  intros R. destruct (prepare_loop_spec O r d SQLITE_BUSY p R) as (c & m & T & E). exists c, m. split; [exact T|].
  unfold prepare_statement. rewrite E. destruct (Z.eqb_spec c 0) as [->|N]; reflexivity.
Qed.
Lemma run_loop_spec O n : forall r d src, (1 <= r)%nat -> state_of (open_ d) n <> None ->
  exists c m, tried (stepc O) (nstep d) r c m /\
  run_loop r O d (St n) src = Ok (c, Db (nprep d) (nstep d + m) (ncol d) (set_state (open_ d) n c) (fresh d)).
Proof.
  induction r as [|r IH]; intros d src R H; [lia|]. cbn [run_loop]. unfold step_. destruct (state_of (open_ d) n) as [x|] eqn:X; [|contradiction]. cbn [bind].
  set (c := stepc O (nstep d)). destruct (busy c) eqn:B; cbn [negb].
  - destruct r as [|r].
    + cbn [run_loop]. exists c, 1%nat. split; [|rewrite Nat.add_1_r; reflexivity]. unfold tried. split; [lia|]. split; [unfold c; f_equal; lia|]. split; [intros j J; lia|reflexivity].
    + destruct (IH (Db (nprep d) (S (nstep d)) (ncol d) (set_state (open_ d) n c) (fresh d)) c ltac:(lia)) as (c2 & m & T & ->).
      { cbn [open_]. rewrite state_set_eq by congruence. discriminate. }
      cbn [nprep nstep ncol open_ fresh] in *. exists c2, (S m). split.
      * destruct T as (T1 & T2 & T3 & T4). unfold tried. split; [lia|]. split; [rewrite T2; f_equal; lia|]. split; [|intros Q; specialize (T4 Q); lia].
        intros j J. destruct j as [|j]; [rewrite Nat.add_0_r; apply busy_iff; exact B|]. replace (nstep d + S j)%nat with (S (nstep d) + j)%nat by lia. apply T3. lia.
      * do 3 f_equal; [lia|]. clear. induction (open_ d) as [|[k x] t IH]; [reflexivity|]. cbn [set_state]. destruct (Nat.eqb k n) eqn:E; cbn [set_state]; rewrite E; [reflexivity|]. rewrite IH. reflexivity.
  - exists c, 1%nat. split; [|rewrite Nat.add_1_r; reflexivity]. apply busy_false in B. unfold tried. split; [lia|]. split; [unfold c; f_equal; lia|]. split; [intros j J; lia|contradiction].
Qed.
Lemma set_state_head l n c x : set_state ((n, x) :: l) n c = (n, c) :: l.
Proof. cbn [set_state]. rewrite Nat.eqb_refl. reflexivity. Qed.
Lemma state_head l n c : state_of ((n, c) :: l) n = Some c.
Proof. cbn [state_of]. rewrite Nat.eqb_refl. reflexivity. Qed.

(** Every lookup starts with this. *)
Lemma ask O r d : (1 <= r)%nat -> wf d ->
  (exists c m, tried (prep O) (nprep d) r c m /\ c <> 0 /\
     prepare_statement r O d Uninit = Ok (c, Null, Db (nprep d + m) (nstep d) (ncol d) (open_ d) (fresh d))) \/
  (exists m c2 m2, tried (prep O) (nprep d) r 0 m /\ tried (stepc O) (nstep d) r c2 m2 /\
     prepare_statement r O d Uninit = Ok (0, St (fresh d), Db (nprep d + m) (nstep d) (ncol d) ((fresh d, 0) :: open_ d) (S (fresh d))) /\
     run_query r O (Db (nprep d + m) (nstep d) (ncol d) ((fresh d, 0) :: open_ d) (S (fresh d))) (St (fresh d)) =
       Ok (c2, Db (nprep d + m) (nstep d + m2) (ncol d) ((fresh d, c2) :: open_ d) (S (fresh d)))).
Proof.
  intros R W. destruct (prepare_spec O r d Uninit R) as (c & m & T & E). destruct (Z.eqb_spec c 0) as [->|N].
  - right. destruct (run_loop_spec O (fresh d) r (Db (nprep d + m) (nstep d) (ncol d) ((fresh d, 0) :: open_ d) (S (fresh d))) SQLITE_BUSY R) as (c2 & m2 & T2 & E2).
    { cbn [open_]. rewrite state_head. discriminate. }
    cbn [nprep nstep ncol open_ fresh] in *. rewrite set_state_head in E2. exists m, c2, m2. auto.
  - left. exists c, m. auto.
Qed.
Lemma finalize_head np ns nc c d : wf d ->
  finalize (Db np ns nc ((fresh d, c) :: open_ d) (S (fresh d))) (St (fresh d)) = Ok (Db np ns nc (open_ d) (S (fresh d))).
Proof. intros [_ W]. unfold finalize. cbn [open_ nprep nstep ncol fresh]. rewrite state_head, drop_fresh by exact W. reflexivity. Qed.
Lemma wf_next np ns nc d : wf d -> wf (Db np ns nc (open_ d) (S (fresh d))).
Proof. intros [W1 W2]. split; [exact W1|]. cbn [open_ fresh]. eapply Forall_impl; [|exact W2]. cbn beta. intros; lia. Qed.
Lemma wf_same np ns nc d : wf d -> wf (Db np ns nc (open_ d) (fresh d)).
Proof. intros W. exact W. Qed.
Ltac asked_none c m := exists c, m; split; [assumption|split; [reflexivity|left; auto]].
Ltac asked_some m c2 m2 := exists 0, m; split; [assumption|split; [reflexivity|right; split; [reflexivity|exists c2, m2; auto]]].
Lemma at_row_head np ns nc c l f n : at_row (Db np ns nc ((n, c) :: l) f) (St n) = (c =? 100).
Proof. unfold at_row. cbn [open_]. rewrite state_head. reflexivity. Qed.

(** * C71: what the lookups return
    Each of them finalises its statement, whatever the database answers, so that afterwards exactly the
    statements are open that were open before. *)
Theorem C71_exists : forall O r d, (1 <= r)%nat -> wf d ->
  exists d' o, exists_ r O d = Ok (match o with Some c => c =? 100 | None => false end, d') /\ asked O r d d' o /\ open_ d' = open_ d /\ wf d'.
Proof.
  intros O r d R W. unfold exists_. destruct (ask O r d R W) as [(c & m & T & N & E)|(m & c2 & m2 & T & T2 & E & E2)]; rewrite E; cbn [bind].
  - replace (c =? 0) with false by lia. eexists. exists None. split; [reflexivity|]. split; [asked_none c m|]. split; [reflexivity|]. exact W.
  - change (0 =? 0) with true. cbn [negb]. rewrite E2. cbn [bind]. rewrite finalize_head by exact W. cbn [bind].
    eexists. exists (Some c2). split; [reflexivity|]. split; [asked_some m c2 m2|]. split; [reflexivity|]. apply wf_next. exact W.
Qed.
Print Assumptions C71_exists.

(** The number arrives as an unsigned; without a row the variable keeps its value. *)
Theorem C71_number : forall O r d old, (1 <= r)%nat -> wf d ->
  exists d' o, asked O r d d' o /\ open_ d' = open_ d /\ wf d' /\
  lookup_number r O d old = Ok (match o with Some c => if c =? 100 then (true, num O (ncol d) mod 2 ^ 32) else (false, old) | None => (false, old) end, d').
Proof.
  intros O r d old R W. unfold lookup_number. destruct (ask O r d R W) as [(c & m & T & N & E)|(m & c2 & m2 & T & T2 & E & E2)]; rewrite E; cbn [bind].
  - replace (c =? 0) with false by lia. eexists. exists None. split; [|split; [|split; [|reflexivity]]]; [asked_none c m|reflexivity|exact W].
  - change (0 =? 0) with true. cbn [negb]. rewrite E2. cbn [bind]. unfold SQLITE_ROW. destruct (c2 =? 100) eqn:Q.
    + unfold column. rewrite at_row_head, Q. cbn [bind nprep nstep ncol open_ fresh]. rewrite finalize_head by exact W. cbn [bind].
      eexists. exists (Some c2). split; [|split; [|split]]; [| | |rewrite Q; reflexivity]; [asked_some m c2 m2|reflexivity|apply wf_next; exact W].
    + cbn [bind]. rewrite finalize_head by exact W. cbn [bind].
      eexists. exists (Some c2). split; [|split; [|split]]; [| | |rewrite Q; reflexivity]; [asked_some m c2 m2|reflexivity|apply wf_next; exact W].
Qed.
Print Assumptions C71_number.

(** The text arrives as a C string of its own; a NULL in the row gives success without a text. *)
Theorem C71_text : forall O r d, (1 <= r)%nat -> wf d ->
  exists d' o, asked O r d d' o /\ open_ d' = open_ d /\ wf d' /\
  lookup_text r O d = Ok (match o with Some c => if c =? 100 then (true, option_map c_str (text O (ncol d))) else (false, None) | None => (false, None) end, d').
Proof.
  intros O r d R W. unfold lookup_text. destruct (ask O r d R W) as [(c & m & T & N & E)|(m & c2 & m2 & T & T2 & E & E2)]; rewrite E; cbn [bind].
  - replace (c =? 0) with false by lia. eexists. exists None. split; [|split; [|split; [|reflexivity]]]; [asked_none c m|reflexivity|exact W].
  - change (0 =? 0) with true. cbn [negb]. rewrite E2. cbn [bind]. unfold SQLITE_ROW. destruct (c2 =? 100) eqn:Q.
    + unfold column. rewrite at_row_head, Q. cbn [bind nprep nstep ncol open_ fresh]. rewrite finalize_head by exact W. cbn [bind].
      eexists. exists (Some c2). split; [|split; [|split]]; [| | |rewrite Q; reflexivity]; [asked_some m c2 m2|reflexivity|apply wf_next; exact W].
    + cbn [bind]. rewrite finalize_head by exact W. cbn [bind].
      eexists. exists (Some c2). split; [|split; [|split]]; [| | |rewrite Q; reflexivity]; [asked_some m c2 m2|reflexivity|apply wf_next; exact W].
Qed.
Print Assumptions C71_text.

Theorem C71_command : forall O r d, (1 <= r)%nat -> wf d ->
  exists d' o, asked O r d d' o /\ open_ d' = open_ d /\ wf d' /\
  command_ r O d = Ok (match o with Some c => ((c =? 101) || (c =? 0) || (c =? 100), c) | None => (false, -2) end, d').
Proof.
  intros O r d R W. unfold command_. destruct (ask O r d R W) as [(c & m & T & N & E)|(m & c2 & m2 & T & T2 & E & E2)]; rewrite E; cbn [bind].
  - replace (c =? 0) with false by lia. eexists. exists None. split; [|split; [|split; [|reflexivity]]]; [asked_none c m|reflexivity|exact W].
  - change (0 =? 0) with true. cbn [negb]. rewrite E2. cbn [bind]. rewrite finalize_head by exact W. cbn [bind].
    eexists. exists (Some c2). split; [|split; [|split; [|reflexivity]]]; [asked_some m c2 m2|reflexivity|apply wf_next; exact W].
Qed.
Print Assumptions C71_command.

(** The state of a query object: its statement is open and [qrc] is its last answer, or it has none. *)
Definition holds_query (d : db) (q : sqlq) : Prop :=
  match qstmt q with St n => state_of (open_ d) n = Some (qrc q) | Null => qrc q <> 100 | Uninit => False end.
Lemma query_start_spec O d : wf d ->
  exists q d' o, query_start O d = Ok (q, d') /\ asked O 5 d d' o /\ ncol d' = ncol d /\ fresh d' = (match o with Some _ => S (fresh d) | None => fresh d end) /\
    match o with
    | Some c => q = Sqlq (St (fresh d)) c /\ open_ d' = (fresh d, c) :: open_ d
    | None => q = Sqlq Null 1 /\ open_ d' = open_ d
    end.
Proof.
  intros W. unfold query_start. destruct (ask O 5 d ltac:(lia) W) as [(c & m & T & N & E)|(m & c2 & m2 & T & T2 & E & E2)]; rewrite E; cbn [bind].
  - replace (c =? 0) with false by lia. cbn [negb]. do 2 eexists. exists None. split; [reflexivity|]. split; [asked_none c m|]. split; [reflexivity|]. split; [reflexivity|]. split; reflexivity.
  - change (0 =? 0) with true. cbn [negb]. rewrite E2. cbn [bind]. do 2 eexists. exists (Some c2). split; [reflexivity|]. split; [asked_some m c2 m2|]. split; [reflexivity|]. split; [reflexivity|]. split; reflexivity.
Qed.
Lemma query_end_head np ns nc c d : wf d ->
  query_end (Db np ns nc ((fresh d, c) :: open_ d) (S (fresh d))) (Sqlq (St (fresh d)) c) = Ok (Db np ns nc (open_ d) (S (fresh d))).
Proof. intros W. unfold query_end. cbn [qstmt nonnull bind]. apply finalize_head. exact W. Qed.

Theorem C71_string : forall O d old, wf d ->
  exists d' o, asked O 5 d d' o /\ open_ d' = open_ d /\ wf d' /\
  lookup_string_ O d old =
    Ok (match o with Some c => if c =? 100 then (true, match text O (ncol d) with Some t => t | None => [] end) else (false, old) | None => (false, old) end, d').
Proof.
  intros O d old W. unfold lookup_string_. destruct (query_start_spec O d W) as (q & [np ns nc op fr] & o & E & A & C & F & M). rewrite E. cbn [bind]. cbn [ncol open_ fresh] in C, F, M.
  destruct o as [c|]; destruct M as [-> M]; subst nc op fr.
  - unfold query_success. cbn [qstmt qrc nonnull bind andb]. unfold SQLITE_ROW. destruct (c =? 100) eqn:Q.
    + unfold result_text, query_success. cbn [qstmt qrc nonnull bind andb]. unfold SQLITE_ROW, column. rewrite Q, at_row_head, Q. cbn [bind nprep nstep ncol open_ fresh].
      rewrite query_end_head by exact W. cbn [bind]. eexists. exists (Some c). split; [|split; [|split]]; [| | |rewrite Q; reflexivity]; [exact A|reflexivity|apply wf_next; exact W].
    + cbn [bind]. rewrite query_end_head by exact W. cbn [bind].
      eexists. exists (Some c). split; [|split; [|split]]; [| | |rewrite Q; reflexivity]; [exact A|reflexivity|apply wf_next; exact W].
  - cbn. eexists. exists None. split; [|split; [|split; [|reflexivity]]]; [exact A|reflexivity|exact W].
Qed.
Print Assumptions C71_string.

Theorem C71_just_string : forall O d, wf d ->
  exists d' o, asked O 5 d d' o /\ open_ d' = open_ d /\ wf d' /\
  lookup_just_string O d =
    Ok (match o with Some c => if c =? 100 then match text O (ncol d) with Some t => t | None => [] end else [] | None => [] end, d').
Proof.
  intros O d W. unfold lookup_just_string. destruct (query_start_spec O d W) as (q & [np ns nc op fr] & o & E & A & C & F & M). rewrite E. cbn [bind]. cbn [ncol open_ fresh] in C, F, M.
  destruct o as [c|]; destruct M as [-> M]; subst nc op fr.
  - unfold result_text, query_success. cbn [qstmt qrc nonnull bind andb]. unfold SQLITE_ROW. destruct (c =? 100) eqn:Q.
    + unfold column. rewrite at_row_head, Q. cbn [bind nprep nstep ncol open_ fresh].
      rewrite query_end_head by exact W. cbn [bind]. eexists. exists (Some c). split; [|split; [|split]]; [| | |rewrite Q; reflexivity]; [exact A|reflexivity|apply wf_next; exact W].
    + cbn [bind]. rewrite query_end_head by exact W. cbn [bind].
      eexists. exists (Some c). split; [|split; [|split]]; [| | |rewrite Q; reflexivity]; [exact A|reflexivity|apply wf_next; exact W].
  - cbn. eexists. exists None. split; [|split; [|split; [|reflexivity]]]; [exact A|reflexivity|exact W].
Qed.
Print Assumptions C71_just_string.

(** getResultInt of a query just made: the number in the row if there is one, 0 otherwise; and the
    statement is closed once, with the object. *)
Theorem C71_integer : forall O d, wf d ->
  exists q d' v d2 d3 o, query_start O d = Ok (q, d') /\ asked O 5 d d' o /\
  result_int O d' q = Ok (v, d2) /\ query_end d2 q = Ok d3 /\ open_ d3 = open_ d /\ wf d3 /\
  v = match o with Some c => if c =? 100 then num O (ncol d) else 0 | None => 0 end.
Proof.
  intros O d W. destruct (query_start_spec O d W) as (q & [np ns nc op fr] & o & E & A & C & F & M). rewrite E. cbn [ncol open_ fresh] in C, F, M.
  destruct o as [c|]; destruct M as [-> M]; subst nc op fr.
  - exists (Sqlq (St (fresh d)) c), (Db np ns (ncol d) ((fresh d, c) :: open_ d) (S (fresh d))).
    unfold result_int, query_success. cbn [qstmt qrc nonnull bind andb]. unfold SQLITE_ROW. destruct (c =? 100) eqn:Q.
    + unfold column. rewrite at_row_head, Q. cbn [bind nprep nstep ncol open_ fresh]. do 3 eexists. exists (Some c). split; [reflexivity|]. split; [exact A|]. split; [reflexivity|].
      split; [apply query_end_head; exact W|]. split; [reflexivity|]. split; [apply wf_next; exact W|]. rewrite Q. reflexivity.
    + do 3 eexists. exists (Some c). split; [reflexivity|]. split; [exact A|]. split; [reflexivity|].
      split; [apply query_end_head; exact W|]. split; [reflexivity|]. split; [apply wf_next; exact W|]. rewrite Q. reflexivity.
  - do 5 eexists. exists None. split; [reflexivity|]. split; [exact A|]. repeat split; try reflexivity; apply W.
Qed.
Print Assumptions C71_integer.

(** * Programs *)
(** Which query objects are alive after a program that tries at least once, uses only objects alive and copies none. *)
Fixpoint users (alive : list nat) (n : nat) (l : list call) : option (list nat) :=
  match l with
  | [] => Some alive
  | (CExists r | CNumber r _ | CText r | CCommand r) :: t => if Nat.leb 1 r then users alive n t else None
  | (CString _ | CJustString) :: t => users alive n t
  | CQuery :: t => users (n :: alive) (S n) t
  | (CStep i | CResText i | CResInt i) :: t => if in_dec Nat.eq_dec i alive then users alive n t else None
  | CEnd i :: t => if in_dec Nat.eq_dec i alive then users (remove Nat.eq_dec i alive) n t else None
  | CCopy _ :: _ => None
  end.
Definition good (alive : list nat) (n : nat) (p : prog) : Prop :=
  wf (pdb p) /\ qmade p = n /\
  (forall i, In i alive <-> query_at (queries p) i <> None) /\
  (forall i, In i alive -> (i < n)%nat) /\
  (forall i q, query_at (queries p) i = Some q -> holds_query (pdb p) q) /\
  (forall i j q q' s, query_at (queries p) i = Some q -> query_at (queries p) j = Some q' -> qstmt q = St s -> qstmt q' = St s -> i = j) /\
  (forall s, In s (map fst (open_ (pdb p))) -> exists i q, query_at (queries p) i = Some q /\ qstmt q = St s).

Lemma put_eq : forall l i q, query_at l i <> None -> query_at (put_query l i q) i = Some q.
Proof.
  induction l as [|[k x] t IH]; intros i q H; [contradiction|]. cbn [query_at] in H. unfold put_query. cbn [map fst]. fold (put_query t i q).
  destruct (Nat.eqb_spec k i) as [->|D]; cbn [query_at]; [rewrite Nat.eqb_refl; reflexivity|]. destruct (Nat.eqb_spec k i); [contradiction|]. apply IH. exact H.
Qed.
Lemma put_neq : forall l i q j, i <> j -> query_at (put_query l i q) j = query_at l j.
Proof.
  induction l as [|[k x] t IH]; intros i q j H; [reflexivity|]. unfold put_query. cbn [map fst]. fold (put_query t i q).
  destruct (Nat.eqb_spec k i) as [->|D]; cbn [query_at].
  - destruct (Nat.eqb_spec i j); [contradiction|]. apply IH. exact H.
  - rewrite IH by exact H. reflexivity.
Qed.
Lemma dropq_eq : forall l i, query_at (drop_query l i) i = None.
Proof.
  induction l as [|[k x] t IH]; intros i; [reflexivity|]. unfold drop_query. cbn [filter fst]. fold (drop_query t i).
  destruct (Nat.eqb_spec k i) as [->|D]; cbn [negb]; [apply IH|]. cbn [query_at]. destruct (Nat.eqb_spec k i); [contradiction|apply IH].
Qed.
Lemma dropq_neq : forall l i j, i <> j -> query_at (drop_query l i) j = query_at l j.
Proof.
  induction l as [|[k x] t IH]; intros i j H; [reflexivity|]. unfold drop_query. cbn [filter fst]. fold (drop_query t i).
  destruct (Nat.eqb_spec k i) as [->|D]; cbn [negb query_at].
  - destruct (Nat.eqb_spec i j); [contradiction|]. apply IH. exact H.
  - rewrite IH by exact H. reflexivity.
Qed.
(** Calls that leave the open statements alone keep everything. *)
Lemma good_same alive n p d : good alive n p -> open_ d = open_ (pdb p) -> wf d -> good alive n (Prog d (queries p) (qmade p)).
Proof.
  intros (W & N & A & B & H & I & K) E W'. unfold good. cbn [pdb queries qmade]. repeat (split; [assumption|]). split; [|split; [exact I|]].
  - intros i q Q. specialize (H i q Q). unfold holds_query in *. rewrite E. exact H.
  - rewrite E. exact K.
Qed.
Lemma fresh_not_held alive n p i q : good alive n p -> query_at (queries p) i = Some q -> qstmt q <> St (fresh (pdb p)).
Proof.
  intros ([_ W] & _ & _ & _ & H & _) Q E. specialize (H i q Q). unfold holds_query in H. rewrite E in H. apply state_in in H.
  apply (keys_forall (fun k => (k < fresh (pdb p))%nat)) in W. rewrite Forall_forall in W. specialize (W _ H). lia.
Qed.
Lemma good_call O alive n p c alive' n' l rest : good alive n p ->
  users alive n (c :: l) = Some rest -> users alive' n' l = Some rest ->
  match c with CQuery => alive' = n :: alive /\ n' = S n | CEnd i => alive' = remove Nat.eq_dec i alive /\ n' = n | _ => alive' = alive /\ n' = n end ->
  exists r p', docall O p c = Ok (r, p') /\ good alive' n' p'.
Proof.
  intros G U U' M. pose proof G as (W & N & A & B & H & I & K). destruct c as [r|r old|r|r|old| | |i|i|i|i|i]; cbn [users] in U; cbn [docall].
  - destruct (Nat.leb_spec 1 r) as [R|]; [|discriminate]. destruct M as [-> ->]. destruct (C71_exists O r (pdb p) R W) as (d' & o & E & _ & P & W').
    rewrite E. cbn [bind]. do 2 eexists. split; [reflexivity|]. exact (good_same alive n p d' G P W').
  - destruct (Nat.leb_spec 1 r) as [R|]; [|discriminate]. destruct M as [-> ->]. destruct (C71_number O r (pdb p) old R W) as (d' & o & _ & P & W' & E).
    rewrite E. destruct (match o with Some _ => _ | None => _ end). cbn [bind]. do 2 eexists. split; [reflexivity|]. exact (good_same alive n p d' G P W').
  - destruct (Nat.leb_spec 1 r) as [R|]; [|discriminate]. destruct M as [-> ->]. destruct (C71_text O r (pdb p) R W) as (d' & o & _ & P & W' & E).
    rewrite E. destruct (match o with Some _ => _ | None => _ end). cbn [bind]. do 2 eexists. split; [reflexivity|]. exact (good_same alive n p d' G P W').
  - destruct (Nat.leb_spec 1 r) as [R|]; [|discriminate]. destruct M as [-> ->]. destruct (C71_command O r (pdb p) R W) as (d' & o & _ & P & W' & E).
    rewrite E. destruct (match o with Some _ => _ | None => _ end). cbn [bind]. do 2 eexists. split; [reflexivity|]. exact (good_same alive n p d' G P W').
  - destruct M as [-> ->]. destruct (C71_string O (pdb p) old W) as (d' & o & _ & P & W' & E).
    rewrite E. destruct (match o with Some _ => _ | None => _ end). cbn [bind]. do 2 eexists. split; [reflexivity|]. exact (good_same alive n p d' G P W').
  - destruct M as [-> ->]. destruct (C71_just_string O (pdb p) W) as (d' & o & _ & P & W' & E).
    rewrite E. cbn [bind]. do 2 eexists. split; [reflexivity|]. exact (good_same alive n p d' G P W').
  - (* CQuery *)
    destruct M as [-> ->]. destruct (query_start_spec O (pdb p) W) as (q & d' & o & E & _ & C & F & Q). rewrite E. cbn [bind]. do 2 eexists. split; [reflexivity|].
    assert (V : query_at (queries p) n = None).
    { destruct (query_at (queries p) n) as [x|] eqn:X; [|reflexivity]. exfalso. assert (J : In n alive) by (apply A; congruence). specialize (B n J). lia. }
    unfold good. cbn [pdb queries qmade]. rewrite N. split.
    { destruct o as [c|]; destruct Q as [-> Q]; unfold wf; rewrite Q, F; [|exact W]. destruct W as [W1 W2]. cbn [map fst]. split.
      - constructor; [|exact W1]. intros J. apply (keys_forall (fun k => (k < fresh (pdb p))%nat)) in W2. rewrite Forall_forall in W2. specialize (W2 _ J). lia.
      - constructor; [cbn [fst]; lia|]. eapply Forall_impl; [|exact W2]. cbn beta. intros; lia. }
    split; [reflexivity|]. split.
    { intros i. cbn [In query_at]. destruct (Nat.eqb_spec n i) as [->|D]; [split; [discriminate|left; reflexivity]|]. rewrite A. split; [intros [J|J]; [contradiction|exact J]|auto]. }
    split. { intros i [<-|J]; [lia|]. specialize (B i J). lia. }
    split.
    { intros i x X. cbn [query_at] in X. destruct (Nat.eqb_spec n i) as [->|D].
      - injection X as <-. destruct o as [c|]; destruct Q as [-> Q]; unfold holds_query; cbn [qstmt qrc]; [rewrite Q; apply state_head|discriminate].
      - pose proof (fresh_not_held alive n p i x G X) as NF. specialize (H i x X). unfold holds_query in *. destruct (qstmt x) as [| |s]; [exact H|exact H|].
        destruct o as [c|]; destruct Q as [-> Q]; rewrite Q; [|exact H]. cbn [state_of]. destruct (Nat.eqb_spec (fresh (pdb p)) s); [congruence|exact H]. }
    split.
    { intros i j x y s X Y SX SY. cbn [query_at] in X, Y. destruct (Nat.eqb_spec n i) as [->|D]; destruct (Nat.eqb_spec i j) as [->|D2]; try reflexivity.
      - injection X as <-. pose proof (fresh_not_held alive i p j y G Y) as NF. destruct o as [c|]; destruct Q as [-> Q]; cbn [qstmt] in SX; [congruence|discriminate].
      - destruct (Nat.eqb_spec n j) as [->|D3].
        + injection Y as <-. pose proof (fresh_not_held alive j p i x G X) as NF. destruct o as [c|]; destruct Q as [-> Q]; cbn [qstmt] in SY; [congruence|discriminate].
        + exact (I i j x y s X Y SX SY). }
    { intros s J. destruct o as [c|]; destruct Q as [-> Q]; rewrite Q in J.
      - destruct J as [<-|J].
        + exists n. eexists. cbn [query_at]. rewrite Nat.eqb_refl. split; reflexivity.
        + destruct (K s J) as (i & x & X & SX). exists i, x. cbn [query_at]. destruct (Nat.eqb_spec n i) as [->|]; [congruence|]. auto.
      - destruct (K s J) as (i & x & X & SX). exists i, x. cbn [query_at]. destruct (Nat.eqb_spec n i) as [->|]; [congruence|]. auto. }
  - (* CStep *)
    destruct (in_dec Nat.eq_dec i alive) as [J|]; [|discriminate]. destruct M as [-> ->]. apply A in J. destruct (query_at (queries p) i) as [q|] eqn:Q; [|contradiction].
    unfold query_step. destruct (Z.eqb_spec (qrc q) SQLITE_ROW) as [RC|RC].
    + pose proof (H i q Q) as HQ. unfold holds_query in HQ. destruct (qstmt q) as [| |s] eqn:SQ; [contradiction|unfold SQLITE_ROW in RC; contradiction|].
      destruct (run_loop_spec O s 5 (pdb p) SQLITE_BUSY ltac:(lia) ltac:(congruence)) as (c & m & _ & E). unfold run_query. rewrite E. cbn [bind qrc qstmt].
      do 2 eexists. split; [reflexivity|]. unfold good. cbn [pdb queries qmade]. split.
      { destruct W as [W1 W2]. split; cbn [open_ fresh]; [rewrite set_state_keys; exact W1|]. apply (keys_forall (fun k => (k < fresh (pdb p))%nat)). rewrite set_state_keys. apply keys_forall. exact W2. }
      split; [exact N|]. split.
      { intros j. destruct (Nat.eq_dec i j) as [<-|D]; [rewrite put_eq by congruence; rewrite A, Q; split; discriminate|]. rewrite put_neq by exact D. apply A. }
      split; [exact B|]. split.
      { intros j x X. destruct (Nat.eq_dec i j) as [<-|D].
        - rewrite put_eq in X by congruence. injection X as <-. unfold holds_query. cbn [qstmt qrc open_]. apply state_set_eq. congruence.
        - rewrite put_neq in X by exact D. pose proof (H j x X) as HX. unfold holds_query in *. destruct (qstmt x) as [| |t] eqn:SX; [exact HX|exact HX|]. cbn [open_].
          rewrite state_set_neq; [exact HX|]. intros <-. apply D. exact (I i j q x s Q X SQ SX). }
      split.
      { assert (Z0 : forall j x t, query_at (put_query (queries p) i (Sqlq (St s) c)) j = Some x -> qstmt x = St t -> exists x', query_at (queries p) j = Some x' /\ qstmt x' = St t).
        { intros j x t X SX. destruct (Nat.eq_dec i j) as [<-|D]; [rewrite put_eq in X by congruence; injection X as <-; exists q; cbn [qstmt] in SX; split; [exact Q|congruence]|].
          rewrite put_neq in X by exact D. eauto. }
        intros j k x y t X Y SX SY. destruct (Z0 j x t X SX) as (x' & X' & SX'). destruct (Z0 k y t Y SY) as (y' & Y' & SY'). exact (I j k x' y' t X' Y' SX' SY'). }
      { intros t J2. cbn [open_] in J2. rewrite set_state_keys in J2. destruct (K t J2) as (j & x & X & SX). destruct (Nat.eq_dec i j) as [<-|D].
        - exists i. eexists. rewrite put_eq by congruence. split; [reflexivity|]. cbn [qstmt]. congruence.
        - exists j, x. rewrite put_neq by exact D. auto. }
    + cbn [bind]. do 2 eexists. split; [reflexivity|]. unfold good. cbn [pdb queries qmade].
      assert (Z0 : forall j, query_at (put_query (queries p) i q) j = query_at (queries p) j).
      { intros j. destruct (Nat.eq_dec i j) as [<-|D]; [rewrite put_eq by congruence; auto|apply put_neq; exact D]. }
      split; [exact W|]. split; [exact N|]. split; [intros j; rewrite Z0; apply A|]. split; [exact B|]. split; [intros j x; rewrite Z0; apply H|].
      split; [intros j k x y t; rewrite !Z0; apply I|]. intros t J2. destruct (K t J2) as (j & x & X & SX). exists j, x. rewrite Z0. auto.
  - (* CResText *)
    destruct (in_dec Nat.eq_dec i alive) as [J|]; [|discriminate]. destruct M as [-> ->]. apply A in J. destruct (query_at (queries p) i) as [q|] eqn:Q; [|contradiction].
    pose proof (H i q Q) as HQ. unfold holds_query in HQ. unfold result_text, query_success, column, at_row.
    destruct (qstmt q) as [| |s]; [contradiction| |]; cbn [nonnull bind andb]; [do 2 eexists; split; [reflexivity|]; exact (good_same alive n p (pdb p) G eq_refl W)|].
    rewrite HQ. destruct (qrc q =? SQLITE_ROW); cbn [bind]; do 2 eexists; (split; [reflexivity|]).
    + exact (good_same alive n p (Db (nprep (pdb p)) (nstep (pdb p)) (S (ncol (pdb p))) (open_ (pdb p)) (fresh (pdb p))) G eq_refl W).
    + exact (good_same alive n p (pdb p) G eq_refl W).
  - destruct (in_dec Nat.eq_dec i alive) as [J|]; [|discriminate]. destruct M as [-> ->]. apply A in J. destruct (query_at (queries p) i) as [q|] eqn:Q; [|contradiction].
    pose proof (H i q Q) as HQ. unfold holds_query in HQ. unfold result_int, query_success, column, at_row.
    destruct (qstmt q) as [| |s]; [contradiction| |]; cbn [nonnull bind andb]; [do 2 eexists; split; [reflexivity|]; exact (good_same alive n p (pdb p) G eq_refl W)|].
    rewrite HQ. destruct (qrc q =? SQLITE_ROW); cbn [bind]; do 2 eexists; (split; [reflexivity|]).
    + exact (good_same alive n p (Db (nprep (pdb p)) (nstep (pdb p)) (S (ncol (pdb p))) (open_ (pdb p)) (fresh (pdb p))) G eq_refl W).
    + exact (good_same alive n p (pdb p) G eq_refl W).
  - (* CEnd *)
    destruct (in_dec Nat.eq_dec i alive) as [J|]; [|discriminate]. destruct M as [-> ->]. pose proof J as JA. apply A in J. destruct (query_at (queries p) i) as [q|] eqn:Q; [|contradiction].
    pose proof (H i q Q) as HQ. unfold holds_query in HQ. unfold query_end.
    assert (RA : forall j, In j (remove Nat.eq_dec i alive) <-> query_at (drop_query (queries p) i) j <> None).
    { intros j. destruct (Nat.eq_dec i j) as [<-|D].
      - rewrite dropq_eq. split; [intros X; apply in_remove in X; destruct X as [_ X]; contradiction|contradiction].
      - rewrite dropq_neq by exact D. rewrite <- A. split; [intros X; apply in_remove in X; tauto|intros X; apply in_in_remove; auto]. }
    assert (RB : forall j, In j (remove Nat.eq_dec i alive) -> (j < n)%nat) by (intros j X; apply in_remove in X; apply B; tauto).
    assert (DQ : forall j x, query_at (drop_query (queries p) i) j = Some x -> i <> j /\ query_at (queries p) j = Some x).
    { intros j x X. destruct (Nat.eq_dec i j) as [<-|D]; [rewrite dropq_eq in X; discriminate|]. rewrite dropq_neq in X by exact D. auto. }
    assert (RI : forall j k x y t, query_at (drop_query (queries p) i) j = Some x -> query_at (drop_query (queries p) i) k = Some y -> qstmt x = St t -> qstmt y = St t -> j = k).
    { intros j k x y t X Y SX SY. apply DQ in X. apply DQ in Y. destruct X as [_ X]. destruct Y as [_ Y]. exact (I j k x y t X Y SX SY). }
    destruct (qstmt q) as [| |s] eqn:SQ; [contradiction| |]; cbn [nonnull bind].
    + do 2 eexists. split; [reflexivity|]. unfold good. cbn [pdb queries qmade]. split; [exact W|]. split; [exact N|]. split; [exact RA|]. split; [exact RB|].
      split; [intros j x X; apply (H j x); apply DQ; exact X|]. split; [exact RI|].
      intros t T. destruct (K t T) as (j & x & X & SX). exists j, x. split; [|exact SX]. rewrite dropq_neq; [exact X|]. intros <-. congruence.
    + unfold finalize. rewrite HQ. cbn [bind]. do 2 eexists. split; [reflexivity|]. unfold good. cbn [pdb queries qmade]. split.
      { destruct W as [W1 W2]. split; cbn [open_ fresh]; [apply drop_nodup; exact W1|]. apply Forall_forall. intros e X. apply filter_In in X. rewrite Forall_forall in W2. apply W2. tauto. }
      split; [exact N|]. split; [exact RA|]. split; [exact RB|]. split.
      { intros j x X. destruct (DQ j x X) as [D X']. pose proof (H j x X') as HX. unfold holds_query in *. destruct (qstmt x) as [| |t] eqn:SX; [exact HX|exact HX|]. cbn [open_].
        rewrite state_drop; [exact HX|]. intros ->. apply D. exact (I i j q x s Q X' SQ SX). }
      split; [exact RI|]. intros t T. cbn [open_] in T. apply drop_in in T. destruct T as [T D]. destruct (K t T) as (j & x & X & SX). exists j, x. split; [|exact SX].
      rewrite dropq_neq; [exact X|]. intros <-. congruence.
  - discriminate.
Qed.
Lemma good_calls O : forall l alive n p rest, good alive n p -> users alive n l = Some rest ->
  exists rs p' n', docalls O p l = Ok (rs, p') /\ good rest n' p'.
Proof.
  induction l as [|c l IH]; intros alive n p rest G U; [injection U as <-; exists [], p, n; auto|].
  assert (X : exists alive' n', users alive' n' l = Some rest /\
    match c with CQuery => alive' = n :: alive /\ n' = S n | CEnd i => alive' = remove Nat.eq_dec i alive /\ n' = n | _ => alive' = alive /\ n' = n end).
  { destruct c; cbn [users] in U; try discriminate;
      try match type of U with (if ?b then _ else _) = _ => destruct b; [|discriminate] end; eexists; eexists; (split; [exact U|split; reflexivity]). }
  destruct X as (alive' & n' & U' & M). destruct (good_call O alive n p c alive' n' l rest G U U' M) as (r & p' & E & G').
  destruct (IH alive' n' p' rest G' U') as (rs & p2 & n2 & E2 & G2). cbn [docalls]. rewrite E. cbn [bind]. rewrite E2. cbn [bind]. do 3 eexists. split; [reflexivity|exact G2].
Qed.

(** No program uses a statement that is not open, reads a column without a row or finalises twice, whatever the
    database answers; the open statements are those of the query objects alive, one each at most. *)
Theorem C71_program : forall O l alive, users [] 0 l = Some alive ->
  exists rs p, docalls O prog0 l = Ok (rs, p) /\ NoDup (map fst (open_ (pdb p))) /\
  (forall i, In i alive <-> query_at (queries p) i <> None) /\
  (forall s, In s (map fst (open_ (pdb p))) <-> exists i q, In i alive /\ query_at (queries p) i = Some q /\ qstmt q = St s) /\
  (forall i j q q' s, query_at (queries p) i = Some q -> query_at (queries p) j = Some q' -> qstmt q = St s -> qstmt q' = St s -> i = j) /\
  (alive = [] -> open_ (pdb p) = []).
Proof.
  intros O l alive U. destruct (good_calls O l [] 0%nat prog0 alive) as (rs & p & n & E & (W & N & A & B & H & I & K)).
  - unfold good, prog0, db0, wf. cbn [pdb queries qmade open_ fresh query_at map In]. split; [split; constructor|]. split; [reflexivity|]. split; [tauto|]. split; [tauto|].
    split; [discriminate|]. split; [discriminate|]. tauto.
  - exact U.
  - exists rs, p. split; [exact E|]. split; [exact (proj1 W)|]. split; [exact A|]. split; [|split; [exact I|]].
    + intros s. split.
      * intros J. destruct (K s J) as (i & q & Q & SQ). exists i, q. split; [apply A; congruence|auto].
      * intros (i & q & _ & Q & SQ). specialize (H i q Q). unfold holds_query in H. rewrite SQ in H. exact (state_in _ _ _ H).
    + intros ->. destruct (open_ (pdb p)) as [|e t]; [reflexivity|]. exfalso. destruct (K (fst e) (or_introl eq_refl)) as (i & q & Q & _). apply (A i). congruence.
Qed.
Print Assumptions C71_program.

(** Defects: without a single try the uninitialised pointer is finalised; a copied query object finalises the statement twice. *)
Theorem C71_no_tries_refuted : forall O d old, exists_ 0 O d = UB /\ lookup_number 0 O d old = UB /\ lookup_text 0 O d = UB /\ command_ 0 O d = UB.
Proof. intros O d old. repeat split. Qed.
Print Assumptions C71_no_tries_refuted.
Theorem C71_copy_refuted : forall O, prep O 0%nat = 0 -> docalls O prog0 [CQuery; CCopy 0; CEnd 0; CEnd 1] = UB.
Proof.
  intros O P. cbn [docalls docall]. destruct (query_start_spec O (pdb prog0)) as (q & d' & o & E & A & C & F & Q); [split; constructor|]. rewrite E. cbn [bind].
  destruct A as (c1 & m1 & (T1 & T2 & T3 & T4) & A1 & A).
  assert (c1 = 0).
  { destruct (Nat.eq_dec m1 1) as [->|D]; [rewrite T2; exact P|]. specialize (T3 0%nat ltac:(lia)). cbn in T3. rewrite P in T3. unfold is_busy in T3. lia. }
  destruct A as [(A & _)|(_ & c2 & m2 & _ & -> & _)]; [contradiction|]. destruct Q as [-> Q]. destruct d' as [np ns nc op fr]. cbn [open_] in Q. subst op. reflexivity.
Qed.
Print Assumptions C71_copy_refuted.

(** * Reading all rows *)
(** for (sqlQuery q(...); q.sqlSuccess(); q.sqlStep()) use(q.getResultText()); *)
Fixpoint read_all (fuel : nat) (O : oracle) (d : db) (q : sqlq) : res (list (list Z) * sqlq * db) :=
  match fuel with
  | O => Ok ([], q, d)
  | S n =>
      do s <- query_success q;
      if s then
        do (t, d) <- result_text O d q;
        do (_, q, d) <- query_step O d q;
        do (ts, q, d) <- read_all n O d q;
        Ok (t :: ts, q, d)
      else Ok ([], q, d)
  end.
(** The answers to sqlite3_step from the [k]-th on: up to four times busy before each of the given codes. *)
Fixpoint answers (f : nat -> Z) (k : nat) (l : list (list Z * Z)) : Prop :=
  match l with
  | [] => True
  | (noise, c) :: t => map f (seq k (length noise + 1)) = noise ++ [c] /\ Forall is_busy noise /\ (length noise <= 4)%nat /\ ~ is_busy c /\
                       answers f (k + (length noise + 1)) t
  end.
Lemma tried_answers f k noise c m c' : map f (seq k (length noise + 1)) = noise ++ [c] -> Forall is_busy noise -> (length noise <= 4)%nat -> ~ is_busy c ->
  tried f k 5 c' m -> c' = c /\ m = (length noise + 1)%nat.
Proof.
  intros E B L N (T1 & T2 & T3 & T4).
  assert (K : forall j, (j < length noise)%nat -> is_busy (f (k + j)%nat)).
  { intros j J. assert (X : nth_error (noise ++ [c]) j = Some (f (k + j)%nat)).
    { rewrite <- E. rewrite (map_nth_error f j (seq k (length noise + 1)) (d := (k + j)%nat)); [reflexivity|].
      rewrite (nth_error_nth' _ 0%nat) by (rewrite seq_length; lia). rewrite seq_nth by lia. reflexivity. }
    rewrite nth_error_app1 in X by exact J. apply nth_error_In in X. rewrite Forall_forall in B. exact (B _ X). }
  assert (C : f (k + length noise)%nat = c).
  { assert (X : nth_error (noise ++ [c]) (length noise) = Some (f (k + length noise)%nat)).
    { rewrite <- E. rewrite (map_nth_error f (length noise) (seq k (length noise + 1)) (d := (k + length noise)%nat)); [reflexivity|].
      rewrite (nth_error_nth' _ 0%nat) by (rewrite seq_length; lia). rewrite seq_nth by lia. reflexivity. }
    rewrite nth_error_app2, Nat.sub_diag in X by lia. cbn [nth_error] in X. congruence. }
  assert (M : m = (length noise + 1)%nat).
  { destruct (Nat.lt_trichotomy m (length noise + 1)) as [G|[G|G]]; [|exact G|].
    - exfalso. assert (Q : is_busy c') by (rewrite T2; replace (k + m - 1)%nat with (k + (m - 1))%nat by lia; apply K; lia). specialize (T4 Q). lia.
    - exfalso. apply N. rewrite <- C. apply T3. lia. }
  split; [|exact M]. rewrite T2, <- C. f_equal. lia.
Qed.
Definition texts (O : oracle) (k n : nat) : list (list Z) := map (fun j => match text O j with Some t => t | None => [] end) (seq k n).
Lemma read_all_spec O s : forall rows fuel d lastn c,
  (length rows < fuel)%nat -> state_of (open_ d) s = Some 100 ->
  answers (stepc O) (nstep d) (map (fun noise => (noise, 100)) rows ++ [(lastn, c)]) -> c <> 100 ->
  exists d', read_all fuel O d (Sqlq (St s) 100) = Ok (texts O (ncol d) (S (length rows)), Sqlq (St s) c, d') /\ open_ d' = set_state (open_ d) s c.
Proof.
  induction rows as [|noise rows IH]; intros fuel d lastn c F H A N; (destruct fuel as [|fuel]; [cbn [length] in F; lia|]); cbn [read_all]; unfold query_success at 1; cbn [qstmt qrc nonnull bind];
    change (100 =? SQLITE_ROW) with true; cbn [andb]; unfold result_text, query_success; cbn [qstmt qrc nonnull bind]; change (100 =? SQLITE_ROW) with true; cbn [andb];
    unfold column, at_row; rewrite H; change (100 =? SQLITE_ROW) with true; cbn iota; cbn [bind]; unfold query_step; cbn [qrc qstmt]; change (100 =? SQLITE_ROW) with true; cbn iota; unfold run_query.
  - cbn [map app answers] in A. destruct A as (A1 & A2 & A3 & A4 & _).
    destruct (run_loop_spec O s 5 (Db (nprep d) (nstep d) (S (ncol d)) (open_ d) (fresh d)) SQLITE_BUSY ltac:(lia)) as (c' & m & T & E); [cbn [open_]; congruence|].
    rewrite E. cbn [nprep nstep ncol open_ fresh] in *. cbn [bind qrc qstmt]. destruct (tried_answers _ _ _ _ _ _ A1 A2 A3 A4 T) as [-> ->].
    destruct fuel as [|fuel]; cbn [read_all].
    + cbn [length] in F. eexists. split; [reflexivity|reflexivity].
    + unfold query_success. cbn [qstmt qrc nonnull bind andb]. unfold SQLITE_ROW. replace (c =? 100) with false by lia. cbn [bind]. eexists. split; [reflexivity|reflexivity].
  - cbn [map app answers] in A. destruct A as (A1 & A2 & A3 & A4 & A5).
    destruct (run_loop_spec O s 5 (Db (nprep d) (nstep d) (S (ncol d)) (open_ d) (fresh d)) SQLITE_BUSY ltac:(lia)) as (c' & m & T & E); [cbn [open_]; congruence|].
    rewrite E. cbn [nprep nstep ncol open_ fresh] in *. cbn [bind qrc qstmt]. destruct (tried_answers _ _ _ _ _ _ A1 A2 A3 A4 T) as [-> ->].
    destruct (IH fuel (Db (nprep d) (nstep d + (length noise + 1)) (S (ncol d)) (set_state (open_ d) s 100) (fresh d)) lastn c) as (d' & R & O').
    + cbn [length] in F. lia.
    + cbn [open_]. apply state_set_eq. congruence.
    + exact A5.
    + exact N.
    + rewrite R. cbn [bind ncol]. exists d'. split; [reflexivity|]. rewrite O'. cbn [open_]. rewrite (set_state_id _ _ _ H). reflexivity.
Qed.

(** Every row is seen once and in order, in spite of up to four busy answers before each; nothing stays open. *)
Theorem C71_rows : forall O d rows lastn c fuel, wf d -> prep O (nprep d) = 0 -> (length rows < fuel)%nat ->
  answers (stepc O) (nstep d) (map (fun noise => (noise, 100)) rows ++ [(lastn, c)]) -> c <> 100 ->
  exists q d1 q' d2 d3, query_start O d = Ok (q, d1) /\ read_all fuel O d1 q = Ok (texts O (ncol d) (length rows), q', d2) /\
  query_end d2 q' = Ok d3 /\ open_ d3 = open_ d.
Proof.
  intros O d rows lastn c fuel W P F A N. destruct (query_start_spec O d W) as (q & d1 & o & E & (c1 & m1 & (T1 & T2 & T3 & T4) & A1 & AA) & C & FR & Q).
  assert (c1 = 0).
  { destruct (Nat.eq_dec m1 1) as [->|D]; [rewrite T2; replace (nprep d + 1 - 1)%nat with (nprep d) by lia; exact P|]. specialize (T3 0%nat ltac:(lia)). rewrite Nat.add_0_r, P in T3. unfold is_busy in T3. lia. }
  destruct AA as [(AA & _)|(_ & c2 & m2 & T & -> & S2)]; [contradiction|]. destruct Q as [-> Q]. exists (Sqlq (St (fresh d)) c2), d1.
  assert (FIN : forall d2 x, open_ d2 = (fresh d, x) :: open_ d -> exists d3, query_end d2 (Sqlq (St (fresh d)) x) = Ok d3 /\ open_ d3 = open_ d).
  { intros d2 x X. unfold query_end. cbn [qstmt nonnull bind]. unfold finalize. rewrite X, state_head. eexists. split; [reflexivity|]. cbn [open_]. apply drop_fresh. exact (proj2 W). }
  destruct rows as [|noise rows]; cbn [map app answers] in A; destruct A as (B1 & B2 & B3 & B4 & B5); destruct (tried_answers _ _ _ _ _ _ B1 B2 B3 B4 T) as [-> ->].
  - destruct (FIN d1 c Q) as (d3 & E3 & O3). exists (Sqlq (St (fresh d)) c), d1, d3. split; [exact E|]. split; [|auto].
    destruct fuel as [|fuel]; [cbn [length] in F; lia|]. cbn [read_all]. unfold query_success. cbn [qstmt qrc nonnull bind andb]. unfold SQLITE_ROW. replace (c =? 100) with false by lia. reflexivity.
  - destruct (read_all_spec O (fresh d) rows fuel d1 lastn c) as (d2 & R & O2).
    + cbn [length] in F. lia.
    + rewrite Q. apply state_head.
    + rewrite S2. exact B5.
    + exact N.
    + rewrite Q, set_state_head in O2. destruct (FIN d2 c O2) as (d3 & E3 & O3). exists (Sqlq (St (fresh d)) c), d2, d3. rewrite C in R. auto.
Qed.
Print Assumptions C71_rows.

Definition demo : oracle := Oracle (fun n => if Nat.eqb n 2 then 1 else 0)
  (fun n => nth n [100; 5; 100; 6; 5; 101; 100; 21] 101) (fun n => nth n [Some (lit "a"); None; Some (lit "b")] None) (fun n => Z.of_nat n - 1).
Example C71_example :
  users [] 0 [CQuery; CResText 0; CStep 0; CResText 0; CStep 0; CNumber 5 7; CExists 1; CEnd 0] = Some [] /\
  match docalls demo prog0 [CQuery; CResText 0; CStep 0; CResText 0; CStep 0; CNumber 5 7; CExists 1; CText 5; CEnd 0] with
  | Ok (rs, p) => rs = [RVoid; RString (lit "a"); RBool true; RString []; RBool false; RNumber true 1; RBool false; RText false None; RVoid] /\ open_ (pdb p) = []
  | _ => False end.
Proof. vm_compute. repeat split. Qed.
Example C71_rows_example :
  answers (stepc demo) 0 (map (fun noise => (noise, 100)) [[]; [5]] ++ [([6; 5], 101)]) /\ texts demo 0 2 = [lit "a"; []].
Proof. split; [|reflexivity]. cbn [map app answers]. unfold is_busy. repeat split; (reflexivity || lia || (repeat constructor; lia) || (vm_compute; intuition discriminate) || (vm_compute; repeat constructor)). Qed.
