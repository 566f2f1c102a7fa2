(** Properties of COUT and CERR (C78). *)
From Verif Require Import Base BaseFacts StreamModel.
From Coq Require Import Sorted.

(** ** Specification *)
(** A finished line: thread, time of its start, text. *)
Record written := Written { wthread : nat; wtime : nat; wline : line }.
Definition shown (w : written) : list out := Stamp (wtime w) (wthread w) :: map Ch (snd (wline w)) ++ [Ch 10].
Definition of_thread (t : nat) (l : list written) : list line := map wline (filter (fun w => Nat.eqb (wthread w) t) l).
(** All threads use only the macros. *)
Definition program (P : nat -> list line) : nat -> list action := fun t => concat (map macro (P t)).
Definition in_time (l : list written) : Prop := StronglySorted (fun a b => wtime a <= wtime b) l.

(** ** The invariant *)
Definition text (l : list written) : list out := concat (map shown l).
Definition tail_of (l : line) (post : list Z) : list action := map (APut (fst l)) post ++ [AEndl (fst l); AUnlock].
Inductive phase (s : state) (done : list written) (left_ : nat -> list line) : option (nat * line) -> Prop :=
| Idle : owner s = None -> (forall t, todo s t = program left_ t) ->
    term s = text done -> buf s = [] -> phase s done left_ None
| Locked h l : owner s = Some (h, 1) -> (forall t, t <> h -> todo s t = program left_ t) ->
    todo s h = AStamp (fst l) :: tail_of l (snd l) ++ program left_ h ->
    term s = text done -> buf s = [] -> phase s done left_ (Some (h, l))
| Mid h l time pre post : owner s = Some (h, 1) -> (forall t, t <> h -> todo s t = program left_ t) ->
    todo s h = tail_of l post ++ program left_ h -> snd l = pre ++ post -> time <= now s -> Forall (fun w => wtime w <= time) done ->
    term s ++ buf s = text done ++ Stamp time h :: map Ch pre ->
    (fst l = Cerr -> buf s = []) -> phase s done left_ (Some (h, l))
| Ended h : owner s = Some (h, 1) -> (forall t, t <> h -> todo s t = program left_ t) ->
    todo s h = AUnlock :: program left_ h ->
    term s = text done -> buf s = [] -> phase s done left_ None.
Definition pend (t : nat) (c : option (nat * line)) : list line :=
  match c with Some (h, l) => if Nat.eqb h t then [l] else [] | None => [] end.
Definition inv (P : nat -> list line) (s : state) : Prop :=
  exists done left_ c, phase s done left_ c /\ (forall t, of_thread t done ++ pend t c ++ left_ t = P t) /\
    in_time done /\ Forall (fun w => wtime w <= now s) done.

Lemma set_same f t l : set_ f t l t = l.
Proof. unfold set_. now rewrite Nat.eqb_refl. Qed.
Lemma set_other f t l u : u <> t -> set_ f t l u = f u.
Proof. unfold set_. destruct (Nat.eqb_spec u t); congruence. Qed.
Lemma program_cons left_ t l r : left_ t = l :: r -> program left_ t = macro l ++ concat (map macro r).
Proof. unfold program. intros ->. reflexivity. Qed.
Lemma text_app a b : text (a ++ b) = text a ++ text b.
Proof. unfold text. now rewrite map_app, concat_app. Qed.
Lemma of_app t a b : of_thread t (a ++ b) = of_thread t a ++ of_thread t b.
Proof. unfold of_thread. now rewrite filter_app, map_app. Qed.
Lemma sorted_snoc l w : in_time l -> Forall (fun x => wtime x <= wtime w) l -> in_time (l ++ [w]).
Proof.
  unfold in_time. induction l as [|a l IH]; cbn [app]; intros H F.
  - repeat constructor.
  - apply StronglySorted_inv in H. destruct H as [H1 H2]. inversion F as [|? ? F1 F2]. subst.
    constructor; auto. apply Forall_app. split; auto.
Qed.
Lemma Forall_later l n m : n <= m -> Forall (fun w => wtime w <= n) l -> Forall (fun w => wtime w <= m) l.
Proof. intros L. apply Forall_impl. intros a. lia. Qed.

Lemma inv_init P : inv P (init (program P)).
Proof. exists [], P, None. split; [constructor; reflexivity|]. repeat split; constructor. Qed.

Lemma inv_step P s e s' : inv P s -> step s e = Some s' -> inv P s'.
Proof.
  intros (done & left_ & c & PH & PR & ST & FN) H. destruct e as [t| |].
  - (* a thread *)
    cbn [step] in H. inversion PH as [O T E B|h l O T TH E B|h l time pre post O T TH SL TN FT E B|h O T TH E B]; subst c.
    + (* idle: only a lock is possible *)
      rewrite T in H. destruct (left_ t) as [|l r] eqn:L.
      { unfold program in H. rewrite L in H. discriminate. }
      rewrite (program_cons _ _ _ _ L) in H. unfold macro in H. cbn [app] in H. rewrite O in H. injection H as <-.
      exists done, (fun u => if Nat.eqb u t then r else left_ u), (Some (t, l)).
      split; [|split; [|split; auto]].
      * apply Locked; cbn [owner with_owner advance todo term buf]; auto.
        -- intros u Nu. rewrite set_other by auto. rewrite T. unfold program. destruct (Nat.eqb_spec u t); congruence.
        -- rewrite set_same. unfold tail_of, program. rewrite Nat.eqb_refl. reflexivity.
      * intros u. rewrite <- (PR u). cbn [pend]. rewrite Nat.eqb_sym. destruct (Nat.eqb_spec u t); [|reflexivity]. subst u. now rewrite L.
    + (* locked *)
      destruct (Nat.eq_dec t h) as [->|Nt].
      * rewrite TH in H. cbn [app] in H. injection H as <-.
        exists done, left_, (Some (h, l)). split; [|split; [exact PR|split; [exact ST|destruct (fst l); exact FN]]].
        apply (Mid _ _ _ h l (now s) [] (snd l)); destruct (fst l) eqn:EL; cbn [owner emit with_owner advance todo term buf now map]; auto;
          try (intros u Nu; rewrite set_other by auto; auto); try (rewrite set_same; reflexivity); try discriminate.
        -- rewrite E, B. reflexivity.
        -- rewrite E, B. cbn [app]. now rewrite app_nil_r.
      * rewrite (T t Nt) in H. destruct (left_ t) as [|l2 r] eqn:L.
        { unfold program in H. rewrite L in H. discriminate. }
        rewrite (program_cons _ _ _ _ L) in H. unfold macro in H. cbn [app] in H. rewrite O in H.
        destruct (Nat.eqb_spec h t); [congruence|discriminate].
    + (* in the middle *)
      destruct (Nat.eq_dec t h) as [->|Nt].
      * rewrite TH in H. destruct post as [|x post].
        -- unfold tail_of in H. cbn [map app] in H. injection H as <-.
           exists (done ++ [Written h time l]), left_, None. rewrite app_nil_r in SL.
           assert (TX : text (done ++ [Written h time l]) = (term s ++ buf s) ++ [Ch 10]).
           { rewrite E, text_app. unfold text at 2. cbn [map concat shown]. unfold shown. cbn [wtime wthread wline]. rewrite app_nil_r, SL.
             rewrite <- app_assoc. reflexivity. }
           assert (NW : now (match fst l with Cout => flush (emit (fst l) (advance s h (AUnlock :: program left_ h)) (Ch 10)) | Cerr => emit (fst l) (advance s h (AUnlock :: program left_ h)) (Ch 10) end) = now s) by (destruct (fst l); reflexivity).
           split; [|split; [|split]].
           ++ apply (Ended _ _ _ h); destruct (fst l) eqn:EL; cbn [owner flush emit with_owner advance todo term buf now]; auto;
                try (intros u Nu; rewrite set_other by auto; auto); try (rewrite set_same; reflexivity); rewrite TX.
              ** now rewrite app_assoc.
              ** now rewrite app_assoc.
           ++ intros u. rewrite <- (PR u), of_app. cbn [pend]. unfold of_thread at 2. cbn [filter wthread].
              destruct (Nat.eqb h u); cbn [map wline app]; rewrite ?app_nil_r, <- ?app_assoc; reflexivity.
           ++ apply sorted_snoc; auto.
           ++ rewrite NW. apply Forall_app. split; auto.
        -- unfold tail_of in H. cbn [map app] in H. injection H as <-.
           exists done, left_, (Some (h, l)). split; [|split; [exact PR|split; [exact ST|destruct (fst l); exact FN]]].
           apply (Mid _ _ _ h l time (pre ++ [x]) post); destruct (fst l) eqn:EL; cbn [owner emit with_owner advance todo term buf now]; auto;
             try (intros u Nu; rewrite set_other by auto; auto); try (rewrite set_same; unfold tail_of; rewrite EL; reflexivity);
             try (rewrite <- app_assoc; exact SL); try discriminate.
           ++ rewrite app_assoc, E, map_app, <- app_assoc. reflexivity.
           ++ rewrite app_nil_r, app_assoc, E, map_app, <- app_assoc. reflexivity.
      * rewrite (T t Nt) in H. destruct (left_ t) as [|l2 r] eqn:L.
        { unfold program in H. rewrite L in H. discriminate. }
        rewrite (program_cons _ _ _ _ L) in H. unfold macro in H. cbn [app] in H. rewrite O in H.
        destruct (Nat.eqb_spec h t); [congruence|discriminate].
    + (* the line is complete *)
      destruct (Nat.eq_dec t h) as [->|Nt].
      * rewrite TH, O, Nat.eqb_refl in H. injection H as <-.
        exists done, left_, None. split; [|auto].
        apply Idle; cbn [owner with_owner advance todo term buf now]; auto.
        intros u. destruct (Nat.eq_dec u h) as [->|Nu]; [now rewrite set_same|]. rewrite set_other by auto. auto.
      * rewrite (T t Nt) in H. destruct (left_ t) as [|l2 r] eqn:L.
        { unfold program in H. rewrite L in H. discriminate. }
        rewrite (program_cons _ _ _ _ L) in H. unfold macro in H. cbn [app] in H. rewrite O in H.
        destruct (Nat.eqb_spec h t); [congruence|discriminate].
  - (* the clock *)
    cbn [step] in H. injection H as <-. exists done, left_, c. split; [|split; [exact PR|split; [exact ST|]]].
    + inversion PH as [O T E B|h l O T TH E B|h l time pre post O T TH SL TN FT E B|h O T TH E B]; subst c.
      * apply Idle; auto.
      * apply Locked; auto.
      * apply (Mid _ _ _ h l time pre post); cbn [owner todo term buf now]; auto.
      * apply (Ended _ _ _ h); auto.
    + cbn [now]. apply (Forall_later _ (now s)); auto.
  - (* the buffer *)
    cbn [step] in H. injection H as <-. exists done, left_, c. split; [|split; [exact PR|split; [exact ST|exact FN]]].
    inversion PH as [O T E B|h l O T TH E B|h l time pre post O T TH SL TN FT E B|h O T TH E B]; subst c.
    + apply Idle; cbn [owner flush todo term buf now]; auto. now rewrite B, app_nil_r.
    + apply Locked; cbn [owner flush todo term buf now]; auto. now rewrite B, app_nil_r.
    + apply (Mid _ _ _ h l time pre post); cbn [owner flush todo term buf now]; auto. now rewrite app_nil_r.
    + apply (Ended _ _ _ h); cbn [owner flush todo term buf now]; auto. now rewrite B, app_nil_r.
Qed.
Lemma inv_run P : forall l s s', inv P s -> run s l = Some s' -> inv P s'.
Proof.
  induction l as [|e l IH]; intros s s' I H; cbn [run] in H.
  - congruence.
  - destruct (step s e) as [s1|] eqn:E; [|discriminate]. eapply IH; [|exact H]. eapply inv_step; eauto.
Qed.

(** ** C78 *)
(** In every schedule, what was written so far is a sequence of complete lines, each with the time and number
    of its thread, in the order of the times, each thread's lines in the order of its program,
    and perhaps the beginning of one more line. *)
Theorem C78_lines : forall P sched s, run (init (program P)) sched = Some s ->
  exists done part,
    term s ++ buf s = concat (map shown done) ++ part /\ in_time done /\
    ((part = [] /\ forall t, exists rest, of_thread t done ++ rest = P t) \/
     exists w more, shown w = part ++ more /\ more <> [] /\ Forall (fun x => wtime x <= wtime w) done /\
       forall t, exists rest, of_thread t (done ++ [w]) ++ rest = P t).
Proof.
  intros P sched s H. destruct (inv_run _ _ _ _ (inv_init P) H) as (done & left_ & c & PH & PR & ST & FN).
  exists done. inversion PH as [O T E B|h l O T TH E B|h l time pre post O T TH SL TN FT E B|h O T TH E B]; subst c.
  - exists []. split; [rewrite E, B; reflexivity|]. split; auto. left. split; auto. intros t. exists (left_ t). apply PR.
  - exists []. split; [rewrite E, B; reflexivity|]. split; auto. left. split; auto. intros t. eexists. apply PR.
  - exists (Stamp time h :: map Ch pre). split; [exact E|]. split; auto. right.
    exists (Written h time l), (map Ch post ++ [Ch 10]). split; [|split; [|split; [exact FT|]]].
    + unfold shown. cbn [wtime wthread wline]. rewrite SL, map_app, <- app_assoc. reflexivity.
    + destruct post; discriminate.
    + intros t. exists (left_ t). rewrite <- (PR t), of_app, <- app_assoc. f_equal. unfold of_thread. cbn [filter wthread pend].
      destruct (Nat.eqb h t); reflexivity.
  - exists []. split; [rewrite E, B; reflexivity|]. split; auto. left. split; auto. intros t. exists (left_ t). apply PR.
Qed.
Print Assumptions C78_lines.

(** When all threads are done, the terminal shows exactly their lines. *)
Theorem C78_complete : forall P sched s, run (init (program P)) sched = Some s -> (forall t, todo s t = []) ->
  exists done, term s = concat (map shown done) /\ buf s = [] /\ owner s = None /\ in_time done /\ forall t, of_thread t done = P t.
Proof.
  intros P sched s H Z. destruct (inv_run _ _ _ _ (inv_init P) H) as (done & left_ & c & PH & PR & ST & FN).
  inversion PH as [O T E B|h l O T TH E B|h l time pre post O T TH SL TN FT E B|h O T TH E B]; subst c.
  - exists done. repeat (split; auto). intros t. rewrite <- (PR t). cbn [pend app].
    specialize (T t). rewrite Z in T. unfold program in T. destruct (left_ t); [now rewrite app_nil_r|discriminate].
  - rewrite Z in TH. discriminate.
  - rewrite Z in TH. unfold tail_of in TH. destruct post; discriminate.
  - rewrite Z in TH. discriminate.
Qed.
Print Assumptions C78_complete.

(** There is always a thread that can go on. *)
Theorem C78_progress : forall P sched s, run (init (program P)) sched = Some s -> (exists t, todo s t <> []) ->
  exists u, step s (Go u) <> None.
Proof.
  intros P sched s H (t & Z). destruct (inv_run _ _ _ _ (inv_init P) H) as (done & left_ & c & PH & PR & ST & FN).
  inversion PH as [O T E B|h l O T TH E B|h l time pre post O T TH SL TN FT E B|h O T TH E B]; subst c.
  - exists t. cbn [step]. destruct (left_ t) as [|l r] eqn:L.
    + exfalso. apply Z. rewrite T. unfold program. now rewrite L.
    + rewrite T, (program_cons _ _ _ _ L). unfold macro. cbn [app]. rewrite O. discriminate.
  - exists h. cbn [step]. rewrite TH. cbn [app]. discriminate.
  - exists h. cbn [step]. rewrite TH. unfold tail_of. destruct post; discriminate.
  - exists h. cbn [step]. rewrite TH, O, Nat.eqb_refl. discriminate.
Qed.
Print Assumptions C78_progress.

(** Defect: a text that is computed by code that uses the macro itself is broken by the inner line,
    with a single thread already. *)
Lemma run_app l1 : forall s l2, run s (l1 ++ l2) = match run s l1 with Some s1 => run s1 l2 | None => None end.
Proof. induction l1 as [|e l1 IH]; intros s l2; cbn [app run]; auto. destruct (step s e); auto. Qed.
Lemma go_puts t o a : forall s r, todo s t = map (APut o) a ++ r ->
  exists s', run s (repeat (Go t) (length a)) = Some s' /\ todo s' t = r /\ owner s' = owner s /\ now s' = now s /\
    term s' ++ buf s' = (term s ++ buf s) ++ map Ch a.
Proof.
  induction a as [|c a IH]; intros s r H; cbn [repeat length map app] in *.
  - exists s. rewrite app_nil_r. auto.
  - set (s1 := emit o (advance s t (map (APut o) a ++ r)) (Ch c)).
    assert (E1 : step s (Go t) = Some s1) by (cbn [step]; rewrite H; reflexivity).
    assert (T1 : todo s1 t = map (APut o) a ++ r) by (unfold s1; destruct o; cbn [emit advance todo]; apply set_same).
    destruct (IH s1 r T1) as (s' & R & A & B & C & D).
    exists s'. cbn [run]. rewrite E1. split; [exact R|]. split; [exact A|].
    assert (X : owner s1 = owner s /\ now s1 = now s /\ term s1 ++ buf s1 = (term s ++ buf s) ++ [Ch c]).
    { unfold s1. destruct o; cbn [emit advance owner now term buf]; rewrite ?app_nil_r, ?app_assoc; auto. }
    destruct X as (X1 & X2 & X3). rewrite B, C, D, X1, X2, X3, <- app_assoc. auto.
Qed.
Theorem C78_nested_refuted : forall o a inner b, exists sched s,
  run (init (fun t => if Nat.eqb t 0 then nested o a inner b else [])) sched = Some s /\ todo s 0 = [] /\
  term s ++ buf s = Stamp 0 0 :: map Ch a ++ shown (Written 0 0 inner) ++ map Ch b ++ [Ch 10].
Proof.
  intros o a [oi ti] b.
  set (s0 := init (fun t => if Nat.eqb t 0 then nested o a (oi, ti) b else [])).
  set (r1 := map (APut o) a ++ macro (oi, ti) ++ map (APut o) b ++ [AEndl o; AUnlock]).
  set (s1 := with_owner (advance s0 0 (AStamp o :: r1)) (Some (0, 1))).
  assert (E1 : step s0 (Go 0) = Some s1) by reflexivity.
  set (s2 := emit o (advance s1 0 r1) (Stamp 0 0)).
  assert (E2 : step s1 (Go 0) = Some s2) by reflexivity.
  assert (T2 : todo s2 0 = r1 /\ owner s2 = Some (0, 1) /\ now s2 = 0 /\ term s2 ++ buf s2 = [Stamp 0 0]) by (unfold s2; destruct o; repeat split; reflexivity).
  clearbody s2. destruct T2 as (T2 & O2 & N2 & D2).
  destruct (go_puts 0 o a s2 _ T2) as (s3 & R3 & T3 & O3 & N3 & D3).
  rewrite O2 in O3. rewrite N2 in N3. rewrite D2 in D3.
  set (r4 := AStamp oi :: map (APut oi) ti ++ [AEndl oi; AUnlock] ++ map (APut o) b ++ [AEndl o; AUnlock]).
  assert (T3' : todo s3 0 = ALock :: r4) by (rewrite T3; unfold macro, r4; cbn [app fst snd]; rewrite <- app_assoc; reflexivity).
  set (s4 := with_owner (advance s3 0 r4) (Some (0, 2))).
  assert (E4 : step s3 (Go 0) = Some s4) by (cbn [step]; rewrite T3', O3; reflexivity).
  set (s5 := emit oi (advance s4 0 (map (APut oi) ti ++ [AEndl oi; AUnlock] ++ map (APut o) b ++ [AEndl o; AUnlock])) (Stamp (now s4) 0)).
  assert (E5 : step s4 (Go 0) = Some s5) by reflexivity.
  assert (T5 : todo s5 0 = map (APut oi) ti ++ [AEndl oi; AUnlock] ++ map (APut o) b ++ [AEndl o; AUnlock] /\ owner s5 = Some (0, 2) /\ now s5 = 0 /\
    term s5 ++ buf s5 = (term s3 ++ buf s3) ++ [Stamp 0 0]).
  { unfold s5, s4. cbn [now with_owner advance]. rewrite N3. destruct oi; cbn [emit with_owner advance todo owner now term buf]; rewrite ?app_nil_r, ?app_assoc; repeat split; auto. }
  clearbody s5. destruct T5 as (T5 & O5 & N5 & D5).
  destruct (go_puts 0 oi ti s5 _ T5) as (s6 & R6 & T6 & O6 & N6 & D6).
  rewrite O5 in O6. cbn [app] in T6.
  assert (EX : exists s7, step s6 (Go 0) = Some s7 /\ todo s7 0 = AUnlock :: map (APut o) b ++ [AEndl o; AUnlock] /\ owner s7 = Some (0, 2) /\
     term s7 ++ buf s7 = (term s6 ++ buf s6) ++ [Ch 10]).
  { eexists. cbn [step]. rewrite T6. split; [reflexivity|].
    destruct oi; cbn [emit flush with_owner advance todo owner now term buf]; rewrite ?app_nil_r, ?app_assoc; repeat split; auto. }
  destruct EX as (s7 & E7 & T7 & O7 & D7).
  set (s8 := with_owner (advance s7 0 (map (APut o) b ++ [AEndl o; AUnlock])) (Some (0, 1))).
  assert (E8 : step s7 (Go 0) = Some s8) by (cbn [step]; rewrite T7, O7; reflexivity).
  assert (T8 : todo s8 0 = map (APut o) b ++ [AEndl o; AUnlock]) by reflexivity.
  destruct (go_puts 0 o b s8 _ T8) as (s9 & R9 & T9 & O9 & _ & D9).
  assert (EX : exists s10, step s9 (Go 0) = Some s10 /\ todo s10 0 = [AUnlock] /\ owner s10 = Some (0, 1) /\
     term s10 ++ buf s10 = (term s9 ++ buf s9) ++ [Ch 10]).
  { eexists. cbn [step]. rewrite T9. split; [reflexivity|].
    destruct o; cbn [emit flush with_owner advance todo owner now term buf]; rewrite ?app_nil_r, ?app_assoc; repeat split; auto. }
  destruct EX as (s10 & E10 & T10 & O10 & D10).
  set (s11 := with_owner (advance s10 0 []) None).
  assert (E11 : step s10 (Go 0) = Some s11) by (cbn [step]; rewrite T10, O10; reflexivity).
  exists ([Go 0; Go 0] ++ repeat (Go 0) (length a) ++ [Go 0; Go 0] ++ repeat (Go 0) (length ti) ++ [Go 0; Go 0] ++ repeat (Go 0) (length b) ++ [Go 0; Go 0]), s11.
  split; [|split; [reflexivity|]].
  - cbn [app run]. rewrite E1, E2. rewrite run_app, R3. cbn [run]. rewrite E4, E5, run_app, R6. cbn [run]. rewrite E7, E8, run_app, R9. cbn [run]. rewrite E10, E11. reflexivity.
  - change (term s11 ++ buf s11) with (term s10 ++ buf s10). rewrite D10, D9.
    change (term s8 ++ buf s8) with (term s7 ++ buf s7). rewrite D7, D6, D5, D3. unfold shown. cbn [wtime wthread wline snd].
    rewrite <- !app_assoc. cbn [app]. rewrite <- !app_assoc. reflexivity.
Qed.
Print Assumptions C78_nested_refuted.

Lemma held_forever : forall sched s s' h n, owner s = Some (h, S n) -> todo s h = [] ->
  (forall t, t <> h -> exists P, todo s t = concat (map macro P)) -> run s sched = Some s' ->
  term s' ++ buf s' = term s ++ buf s /\ forall t, todo s' t = todo s t.
Proof.
  induction sched as [|e l IH]; intros s s' h n O Z P H; cbn [run] in H.
  - injection H as <-. auto.
  - destruct (step s e) as [s1|] eqn:E; [|discriminate].
    assert (K : owner s1 = owner s /\ (forall t, todo s1 t = todo s t) /\ term s1 ++ buf s1 = term s ++ buf s).
    { destruct e as [t| |]; cbn [step] in E.
      - exfalso. destruct (Nat.eq_dec t h) as [->|Nt]; [rewrite Z in E; discriminate|].
        destruct (P t Nt) as (Q & EQ). rewrite EQ in E. destruct Q as [|l0 Q]; cbn [map concat] in E; [discriminate|].
        unfold macro in E. cbn [app] in E. rewrite O in E. destruct (Nat.eqb_spec h t); [congruence|discriminate].
      - injection E as <-. auto.
      - injection E as <-. cbn [flush owner todo term buf]. rewrite app_nil_r. auto. }
    destruct K as (K1 & K2 & K3).
    destruct (IH s1 s' h n) as (A & B); auto.
    + now rewrite K1.
    + now rewrite K2.
    + intros t Nt. rewrite K2. auto.
    + rewrite A, K3. split; auto. intros t. now rewrite B.
Qed.
Lemma go_others s u s' t : step s (Go u) = Some s' -> t <> u -> todo s' t = todo s t.
Proof.
  intros H N. assert (A : forall l, todo (advance s u l) t = todo s t) by (intros l; cbn [advance todo]; unfold set_; destruct (Nat.eqb_spec t u); [contradiction|reflexivity]). cbn [step] in H. destruct (todo s u) as [|x r]; [discriminate|].
  destruct x; repeat match type of H with context [match ?d with _ => _ end] => destruct d end; try discriminate; injection H as <-; try exact (A r); match goal with o : stream |- _ => destruct o end; exact (A r).
Qed.
Lemma run_others : forall n s u s' t, run s (repeat (Go u) n) = Some s' -> t <> u -> todo s' t = todo s t.
Proof.
  induction n as [|n IH]; intros s u s' t H N; cbn [repeat run] in H; [injection H as <-; reflexivity|]. destruct (step s (Go u)) as [s1|] eqn:E; [|discriminate]. rewrite (IH _ _ _ _ H N). exact (go_others _ _ _ _ E N).
Qed.
(** Defect: if evaluating a text throws, the lock stays locked: no other thread ever writes a line again. *)
Theorem C78_throw_refuted : forall o a P, exists sched s,
  run (init (fun t => if Nat.eqb t 0 then thrown o a else program P t)) sched = Some s /\ todo s 0 = [] /\
  forall sched' s', run s sched' = Some s' ->
    term s' ++ buf s' = Stamp 0 0 :: map Ch a /\ forall t, t <> 0 -> todo s' t = program P t.
Proof.
  intros o a P. set (s0 := init (fun t => if Nat.eqb t 0 then thrown o a else program P t)).
  set (s1 := with_owner (advance s0 0 (AStamp o :: map (APut o) a)) (Some (0, 1))). assert (E1 : step s0 (Go 0) = Some s1) by reflexivity.
  set (s2 := emit o (advance s1 0 (map (APut o) a)) (Stamp 0 0)). assert (E2 : step s1 (Go 0) = Some s2) by reflexivity.
  assert (T2 : todo s2 0 = map (APut o) a ++ [] /\ owner s2 = Some (0, 1) /\ term s2 ++ buf s2 = [Stamp 0 0]) by (rewrite app_nil_r; unfold s2; destruct o; repeat split; reflexivity).
  destruct T2 as (T2 & O2 & D2). destruct (go_puts 0 o a s2 _ T2) as (s3 & R3 & T3 & O3 & N3 & D3). rewrite O2 in O3. rewrite D2 in D3.
  assert (OT : forall t, t <> 0 -> todo s3 t = program P t).
  { intros t N. rewrite (run_others _ _ _ _ _ R3 N), (go_others _ _ _ _ E2 N), (go_others _ _ _ _ E1 N). unfold s0. cbn [init todo]. destruct (Nat.eqb_spec t 0); [contradiction|reflexivity]. }
  exists ([Go 0; Go 0] ++ repeat (Go 0) (length a)), s3. split; [cbn [app run]; rewrite E1, E2; exact R3|]. split; [exact T3|]. intros sched' s' R.
  destruct (held_forever sched' s3 s' 0 0 O3 T3) as (A & B); [|exact R|].
  - intros t N. exists (P t). rewrite (OT t N). reflexivity.
  - split; [rewrite A; exact D3|]. intros t N. rewrite B. exact (OT t N).
Qed.
Print Assumptions C78_throw_refuted.

(** Two threads; the second tries in vain while the first writes. *)
Example C78_ex :
  let P := fun t => match t with 0 => [(Cout, lit "ab"); (Cerr, lit "c")] | 1 => [(Cout, lit "x")] | _ => [] end in
  exists s, run (init (program P)) [Go 0; Tick; Go 0; Go 0; Spill; Go 0; Go 0; Go 0; Tick; Go 1; Go 1; Go 1; Go 1; Go 1; Go 0; Go 0; Go 0; Go 0] = Some s /\
  term s = [Stamp 1 0; Ch 97; Ch 98; Ch 10; Stamp 2 1; Ch 120; Ch 10; Stamp 2 0; Ch 99; Ch 10] /\
  run (init (program P)) [Go 0; Tick; Go 0; Go 1] = None.
Proof. eexists. vm_compute. repeat split. Qed.
