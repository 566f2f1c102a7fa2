(** Properties C57 and C58: signal handlers and single instances. *)
From Verif Require Import Base BaseFacts UtilsModel UtilsSpec SqlModel SqlProofs SignalModel.
Local Open Scope Z_scope.

(** ** C58 *)
(** Spec: the handlers registered for a signal, in order. *)
Definition registered_for (sig : Z) (l : list (Z * Z)) : list Z := map fst (filter (fun e => snd e =? sig) l).
Definition catchable (sig : Z) : Prop := 1 <= sig < 64.
(** Signals whose default action is Core in signal(7): QUIT ILL TRAP ABRT BUS FPE SEGV XCPU XFSZ SYS. *)
Definition dumps_core (sig : Z) : Prop := In sig [3; 4; 5; 6; 7; 8; 11; 24; 25; 31].

Lemma register_list s h sig y : mListHandlers (register s h sig) y = if (y =? sig) && ((1 <=? sig) && (sig <? 64)) then mListHandlers s y ++ [h] else mListHandlers s y.
Proof.
  unfold register, C_NSIG. destruct ((sig <=? 0) || (64 <=? sig)) eqn:E.
  - replace ((1 <=? sig) && (sig <? 64)) with false by lia. rewrite andb_false_r. reflexivity.
  - replace ((1 <=? sig) && (sig <? 64)) with true by lia. rewrite andb_true_r. cbn [mListHandlers]. reflexivity.
Qed.
Lemma registers_list l : forall s y, mListHandlers (registers s l) y = mListHandlers s y ++ (if (1 <=? y) && (y <? 64) then registered_for y l else []).
Proof.
  induction l as [|[h sig] l IH]; intros s y; [cbn [registered_for map filter]; destruct ((1 <=? y) && (y <? 64)); symmetry; apply app_nil_r|].
  change (registers s ((h, sig) :: l)) with (registers (register s h sig) l). rewrite IH, register_list. unfold registered_for. cbn [filter fst snd]. rewrite (Z.eqb_sym sig y).
  destruct (y =? sig) eqn:E; cbn [andb]; [|reflexivity]. replace sig with y by lia. destruct ((1 <=? y) && (y <? 64)); [|reflexivity]. cbn [map fst]. rewrite <- app_assoc. reflexivity.
Qed.
(** The lists hold what was registered, in order; out-of-range registrations change nothing. *)
Theorem C58_registered l sig : catchable sig -> mListHandlers (registers sigs0 l) sig = registered_for sig l.
Proof. intros C. unfold catchable in C. rewrite registers_list. replace ((1 <=? sig) && (sig <? 64)) with true by lia. reflexivity. Qed.
Print Assumptions C58_registered.
Theorem C58_out_of_range s h sig : ~ catchable sig -> register s h sig = s.
Proof. unfold catchable. intros C. unfold register, C_NSIG. replace ((sig <=? 0) || (64 <=? sig)) with true by lia. reflexivity. Qed.
Print Assumptions C58_out_of_range.
(** Exactly the registered signals are caught, except those that cannot be. *)
Theorem C58_caught l sig : disp (registers sigs0 l) sig = if existsb (fun e => snd e =? sig) l && ((1 <=? sig) && (sig <? 64) && negb (sig =? 9) && negb (sig =? 19)) then Ours else Dfl.
Proof.
  assert (G : forall s, disp (registers s l) sig = if existsb (fun e => snd e =? sig) l && ((1 <=? sig) && (sig <? 64) && negb (sig =? 9) && negb (sig =? 19)) then Ours else disp s sig).
  { induction l as [|[h g] l IH]; intros s; [reflexivity|]. change (registers s ((h, g) :: l)) with (registers (register s h g) l). rewrite IH. cbn [existsb snd].
    assert (D : disp (register s h g) sig = if (g =? sig) && ((1 <=? sig) && (sig <? 64) && negb (sig =? 9) && negb (sig =? 19)) then Ours else disp s sig).
    { unfold register, C_NSIG. destruct (g =? sig) eqn:E.
      - replace g with sig by lia. destruct ((sig <=? 0) || (64 <=? sig)) eqn:F; [replace ((1 <=? sig) && (sig <? 64)) with false by lia; reflexivity|]. cbn [disp]. unfold signal_.
        destruct (negb (sig =? 9) && negb (sig =? 19)) eqn:K; [replace ((1 <=? sig) && (sig <=? 64) && negb (sig =? 9) && negb (sig =? 19)) with true by lia; rewrite Z.eqb_refl; replace ((1 <=? sig) && (sig <? 64) && negb (sig =? 9) && negb (sig =? 19)) with true by lia; reflexivity|].
        replace ((1 <=? sig) && (sig <=? 64) && negb (sig =? 9) && negb (sig =? 19)) with false by lia. replace ((1 <=? sig) && (sig <? 64) && negb (sig =? 9) && negb (sig =? 19)) with false by lia. reflexivity.
      - cbn [andb]. destruct ((g <=? 0) || (64 <=? g)); [reflexivity|]. cbn [disp]. unfold signal_. destruct ((1 <=? g) && (g <=? 64) && negb (g =? 9) && negb (g =? 19)); [|reflexivity]. rewrite (Z.eqb_sym sig g), E. reflexivity. }
    rewrite D. destruct (g =? sig), (existsb (fun e => snd e =? sig) l), ((1 <=? sig) && (sig <? 64) && negb (sig =? 9) && negb (sig =? 19)); reflexivity. }
  apply G.
Qed.
Print Assumptions C58_caught.

Lemma registers_grow s l y : exists more, mListHandlers (registers s l) y = mListHandlers s y ++ more.
Proof. eexists. apply registers_list. Qed.
Lemma handler_loop_spec fuel eff sig : forall s i calls s', handler_loop fuel eff s sig i = Ok (calls, s') ->
  calls = skipn i (mListHandlers s' sig) /\ exists more, mListHandlers s' sig = mListHandlers s sig ++ more.
Proof.
  induction fuel as [|fuel IH]; intros s i calls s' H; cbn [handler_loop] in H; [discriminate|]. destruct (nth_error (mListHandlers s sig) i) as [h|] eqn:N.
  - apply bind_ok in H. destruct H as ([c s1] & H & E). apply Ok_inj in E. injection E as <- <-. destruct (IH _ _ _ _ H) as (C & more & M). destruct (registers_grow s (eff h) sig) as (m2 & M2).
    assert (L : nth_error (mListHandlers s1 sig) i = Some h) by (rewrite M, M2, nth_error_app1, nth_error_app1; [exact N| |rewrite app_length]; assert (i < length (mListHandlers s sig))%nat by (apply nth_error_Some; rewrite N; discriminate); lia).
    split; [|exists (m2 ++ more); rewrite M, M2, app_assoc; reflexivity]. rewrite C. clear -L. revert i L. induction (mListHandlers s1 sig) as [|x l IH]; intros [|i] L; try discriminate; cbn [nth_error skipn] in *; [injection L as <-; reflexivity|]. rewrite (IH i L). reflexivity.
  - apply Ok_inj in H. injection H as <- <-. split; [symmetry; apply skipn_all2; apply nth_error_None; exact N|exists []; rewrite app_nil_r; reflexivity].
Qed.
(** Whatever handlers register while they run: if delivery ends, every handler registered for the
    signal by then has been called exactly once per registration, in order. *)
Theorem C58_delivery_general fuel eff s sig core calls s' again : catchable sig -> sigHandler fuel eff s sig = Ok (core, calls, s', again) ->
  calls = mListHandlers s' sig /\ (exists more, mListHandlers s' sig = mListHandlers s sig ++ more) /\ (core = true <-> dumps_core sig) /\ again = true.
Proof.
  unfold catchable. intros C H. unfold sigHandler, C_NSIG in H. replace ((sig <=? 0) || (64 <=? sig)) with false in H by lia. apply bind_ok in H. destruct H as ([[c l] s1] & H & E). apply Ok_inj in E. injection E as <- <- <- <-.
  unfold Handler, C_NSIG in H. replace ((sig <? 0) || (64 <=? sig)) with false in H by lia. apply bind_ok in H. destruct H as ([l' s2] & H & E). apply Ok_inj in E. injection E as <- <- <-.
  destruct (handler_loop_spec _ _ _ _ _ _ _ H) as (A & B). cbn [mListHandlers] in *. rewrite skipn_O in A. split; [exact A|]. split; [exact B|]. split; [|reflexivity].
  unfold core_case, dumps_core. rewrite existsb_exists. split; [intros (x & I & Q); replace sig with x by lia; cbn [In] in *; tauto|intros I; exists sig; split; [cbn [In] in *; tauto|lia]].
Qed.
Print Assumptions C58_delivery_general.
(** If handlers register nothing for the signal, delivery ends: exactly the handlers registered
    before are called, the signal gets its default action and is raised again. *)
Lemma handler_loop_ends eff sig : (forall h, registered_for sig (eff h) = []) -> forall k s i, (length (mListHandlers s sig) - i = k)%nat ->
  exists s', handler_loop (S k) eff s sig i = Ok (skipn i (mListHandlers s sig), s') /\ mListHandlers s' sig = mListHandlers s sig.
Proof.
  intros E. induction k as [|k IH]; intros s i L.
  - cbn [handler_loop]. replace (nth_error (mListHandlers s sig) i) with (@None Z) by (symmetry; apply nth_error_None; lia). exists s. rewrite skipn_all2 by lia. split; reflexivity.
  - change (handler_loop (S (S k)) eff s sig i) with (match nth_error (mListHandlers s sig) i with None => Ok ([], s) | Some h => do (calls, s') <- handler_loop (S k) eff (registers s (eff h)) sig (S i); Ok (h :: calls, s') end).
    destruct (nth_error (mListHandlers s sig) i) as [h|] eqn:N; [|apply nth_error_None in N; lia].
    assert (Same : mListHandlers (registers s (eff h)) sig = mListHandlers s sig) by (rewrite registers_list, E; destruct ((1 <=? sig) && (sig <? 64)); apply app_nil_r).
    destruct (IH (registers s (eff h)) (S i) ltac:(rewrite Same; lia)) as (s' & H & A). rewrite H. cbn [bind]. exists s'. rewrite A, Same. split; [|reflexivity].
    do 2 f_equal. clear -N. revert i N. induction (mListHandlers s sig) as [|x l IH]; intros [|i] N; try discriminate; cbn [nth_error skipn] in *; [injection N as <-; reflexivity|]. rewrite <- (IH i N). reflexivity.
Qed.
Theorem C58_delivery l sig eff : catchable sig -> (forall h, registered_for sig (eff h) = []) ->
  exists fuel core s', sigHandler fuel eff (registers sigs0 l) sig = Ok (core, registered_for sig l, s', true) /\
    (core = true <-> dumps_core sig) /\ (sig <> 9 /\ sig <> 19 -> disp s' sig = Dfl).
Proof.
  intros C E. set (s := registers sigs0 l). set (s1 := Sigs (mListHandlers s) (signal_ (disp s) sig Ign)).
  destruct (handler_loop_ends eff sig E _ s1 0 eq_refl) as (s2 & H & A). exists (S (length (mListHandlers s1 sig) - 0)), (core_case sig), (Sigs (mListHandlers s2) (signal_ (disp s2) sig Dfl)).
  assert (R : sigHandler (S (length (mListHandlers s1 sig) - 0)) eff s sig = Ok (core_case sig, registered_for sig l, Sigs (mListHandlers s2) (signal_ (disp s2) sig Dfl), true)).
  { unfold sigHandler, C_NSIG. fold s1. unfold catchable in C. replace ((sig <=? 0) || (64 <=? sig)) with false by lia. unfold Handler, C_NSIG. replace ((sig <? 0) || (64 <=? sig)) with false by lia.
    rewrite H. cbn [bind]. rewrite skipn_O. change (mListHandlers s1 sig) with (mListHandlers (registers sigs0 l) sig). rewrite (C58_registered l sig C). reflexivity. }
  rewrite R. split; [reflexivity|]. destruct (C58_delivery_general _ _ _ _ _ _ _ _ C R) as (_ & _ & K & _). split; [exact K|].
  intros [N9 N19]. cbn [disp]. unfold signal_, catchable in *. replace ((1 <=? sig) && (sig <=? 64) && negb (sig =? 9) && negb (sig =? 19)) with true by lia. rewrite Z.eqb_refl. reflexivity.
Qed.
Print Assumptions C58_delivery.
(** Defect: a handler that registers itself again for its signal is called forever. *)
Theorem C58_reregister_refuted fuel : sigHandler fuel (fun h => [(h, 15)]) (registers sigs0 [(1, 15)]) 15 = Diverge.
Proof.
  assert (G : forall fuel s i k, mListHandlers s 15 = repeat 1 k -> (i < k)%nat -> handler_loop fuel (fun h => [(h, 15)]) s 15 i = Diverge).
  { clear. induction fuel as [|fuel IH]; intros s i k L K; [reflexivity|]. cbn [handler_loop]. rewrite L, (nth_error_repeat 1 K).
    rewrite (IH _ (S i) (S k)); [reflexivity| |lia]. rewrite registers_list, L. change ((1 <=? 15) && (15 <? 64)) with true. cbv iota. change (registered_for 15 [(1, 15)]) with (repeat 1 1).
    rewrite <- repeat_app. f_equal. lia. }
  unfold sigHandler, Handler, C_NSIG. change (core_case 15) with false. change ((15 <=? 0) || (64 <=? 15)) with false. change ((15 <? 0) || (64 <=? 15)) with false. cbv iota. cbn [bind].
  rewrite (G fuel _ 0%nat 1%nat); [reflexivity|reflexivity|lia].
Qed.
Print Assumptions C58_reregister_refuted.
Example C58_example : let s := registers sigs0 [(1, 15); (2, 2); (3, 15); (4, 99)] in
  mListHandlers s 15 = [1; 3] /\ disp s 15 = Ours /\ disp s 99 = Dfl /\
  exists s', sigHandler 9 (fun h => if h =? 1 then [(7, 2)] else []) s 15 = Ok (false, [1; 3], s', true) /\ mListHandlers s' 2 = [2; 7] /\ disp s' 15 = Dfl.
Proof. cbv zeta. split; [reflexivity|]. split; [reflexivity|]. split; [reflexivity|]. eexists. split; [vm_compute; reflexivity|]. split; vm_compute; reflexivity. Qed.

(** ** C57 *)
(** Spec: base names. *)
Definition no_slash (n : list Z) : Prop := Forall (fun c => c <> 47) n.
Lemma from_slash_none n : no_slash n -> from_slash n = None.
Proof. induction n as [|c n IH]; intros H; [reflexivity|]. cbn [from_slash]. rewrite (IH (Forall_inv_tail H)). pose proof (Forall_inv H : c <> 47). replace (c =? 47) with false by lia. reflexivity. Qed.
Lemma from_slash_last dir n : no_slash n -> from_slash (dir ++ 47 :: n) = Some (47 :: n).
Proof. intros H. induction dir as [|c d IH]; cbn [app from_slash]; [rewrite (from_slash_none n H); reflexivity|rewrite IH; reflexivity]. Qed.
Lemma squeeze_free n : no_slash n -> squeeze n = n.
Proof.
  induction n as [|c n IH]; intros H; [reflexivity|]. cbn [squeeze]. pose proof (Forall_inv H : c <> 47). replace (c =? 47) with false by lia. rewrite (IH (Forall_inv_tail H)). destruct n; reflexivity.
Qed.
Lemma squeeze_cons c n : c <> 47 -> squeeze (c :: n) = c :: squeeze n.
Proof. intros H. cbn [squeeze]. replace (c =? 47) with false by lia. destruct n; reflexivity. Qed.
Lemma squeeze_slash n : no_slash n -> squeeze (47 :: n) = 47 :: n /\ squeeze (47 :: 47 :: n) = 47 :: n.
Proof.
  intros H. assert (A : squeeze (47 :: n) = 47 :: n).
  { destruct n as [|d n]; [reflexivity|]. change (squeeze (47 :: d :: n)) with (if (47 =? 47) && (d =? 47) then squeeze (d :: n) else 47 :: squeeze (d :: n)). pose proof (Forall_inv H : d <> 47). replace (d =? 47) with false by lia. cbn [andb]. rewrite (squeeze_free _ H). reflexivity. }
  split; [exact A|]. change (squeeze (47 :: 47 :: n)) with (squeeze (47 :: n)). exact A.
Qed.
Lemma squeeze_run n : squeeze (lit "/var/run" ++ n) = lit "/var/run" ++ squeeze n.
Proof. change (lit "/var/run") with [47; 118; 97; 114; 47; 114; 117; 110]. cbn [app squeeze]. destruct n; reflexivity. Qed.
Lemma no_slash_pid n : no_slash n -> no_slash (n ++ lit ".pid").
Proof. intros H. apply Forall_app. split; [exact H|]. repeat constructor; discriminate. Qed.
(** Names of at most 84 characters: the file is /var/run/NAME.pid however the program was called. *)
Theorem C57_pid_file dir name : no_slash name -> (length name <= 84)%nat ->
  pid_file name = lit "/var/run/" ++ name ++ lit ".pid" /\ pid_file (dir ++ 47 :: name) = lit "/var/run/" ++ name ++ lit ".pid".
Proof.
  intros N L. unfold pid_file, buf_of. rewrite (from_slash_none name N), (from_slash_last dir name N). pose proof (squeeze_slash _ (no_slash_pid _ N)) as (A & B).
  change (lit "/var/run/") with (lit "/var/run" ++ [47]).
  rewrite !firstn_all2.
  - rewrite <- !app_assoc. cbn [app]. rewrite !squeeze_run, A, B. split; reflexivity.
  - cbn [app]. rewrite !app_length. cbn [length]. rewrite ?app_length. change (length (lit "/var/run")) with 8%nat. change (length (lit ".pid")) with 4%nat. lia.
  - cbn [app]; rewrite !app_length. cbn [length]. change (length (lit "/var/run")) with 8%nat. change (length (lit ".pid")) with 4%nat. lia.
Qed.
Print Assumptions C57_pid_file.
(** So two programs share the file exactly if their base names agree. *)
Theorem C57_same_program a b : no_slash a -> no_slash b -> (length a <= 84)%nat -> (length b <= 84)%nat -> pid_file a = pid_file b -> a = b.
Proof.
  intros A B La Lb H. rewrite (proj1 (C57_pid_file [] a A La)), (proj1 (C57_pid_file [] b B Lb)) in H. apply app_inv_head, app_inv_tail in H. exact H.
Qed.
Print Assumptions C57_same_program.
(** Defect: longer names are cut; different programs then exclude each other. *)
Theorem C57_long_names_refuted : exists a b, a <> b /\ length a = 90%nat /\ pid_file a = pid_file b.
Proof. exists (repeat 120 89 ++ [97]), (repeat 120 89 ++ [98]). split; [discriminate|]. split; vm_compute; reflexivity. Qed.
Print Assumptions C57_long_names_refuted.

(** Spec: histories in which the check and the creation are not interleaved with other processes
    and a process that has run Exit does nothing more.  Files registered for removal are not pid files. *)
Inductive act := Start (p : nat) (argv0 : list Z) (ok : bool) | Finish_start (p : nat) | Add_file (p : nat) (f : path) | Leave (p : nat) | Crash (p : nat).
Definition events (a : act) : list sevent :=
  match a with
  | Start p argv0 ok => [SCheck p argv0; SCreate p ok]
  | Finish_start p => [SReady p]
  | Add_file p f => [SFile p f]
  | Leave p => [SExit p; SDie p]
  | Crash p => [SDie p]
  end.
Definition files_apart (l : list act) : Prop := forall p f, In (Add_file p f) l -> forall argv0, f <> pid_file argv0.
Definition serial (l : list act) : list sevent := flat_map events l.
Definition running (s : sys) (p : nat) (f : path) : Prop := ph s p = Created f \/ ph s p = Ready f.
Definition boot (m : path -> option nat) : sys := Sys m (fun _ => Idle) (fun _ => []).

Definition J (s : sys) : Prop :=
  (forall p f, running s p f -> fs s f = Some p /\ exists argv0, f = pid_file argv0) /\
  (forall p f, ph s p <> Checked f /\ ph s p <> Exiting f) /\
  (forall p f argv0, In f (files s p) -> f <> pid_file argv0).
Lemma fput_eq m f v : fput m f v f = v. Proof. unfold fput. rewrite weqb_refl. reflexivity. Qed.
Lemma fput_neq m f v g : f <> g -> fput m f v g = m g.
Proof. intros H. unfold fput. destruct (weqb f g) eqn:E; [apply weqb_iff in E; congruence|reflexivity]. Qed.
Lemma pput_eq {A} (m : nat -> A) p v : pput m p v p = v. Proof. unfold pput. rewrite Nat.eqb_refl. reflexivity. Qed.
Lemma pput_neq {A} (m : nat -> A) p v q : p <> q -> pput m p v q = m q.
Proof. intros H. unfold pput. destruct (Nat.eqb_spec p q); [contradiction|reflexivity]. Qed.
Lemma unlink_all_spec l : forall m f, unlink_all m l f = if existsb (fun g => weqb g f) l then None else m f.
Proof.
  induction l as [|g l IH]; intros m f; [reflexivity|]. change (unlink_all m (g :: l)) with (unlink_all (fput m g None) l). rewrite IH. cbn [existsb]. unfold fput. destruct (weqb g f), (existsb (fun g0 => weqb g0 f) l); reflexivity.
Qed.
Lemma unlink_all_out l m f : ~ In f l -> unlink_all m l f = m f.
Proof. intros H. rewrite unlink_all_spec. destruct (existsb (fun g => weqb g f) l) eqn:E; [|reflexivity]. apply existsb_exists in E. destruct E as (g & I & Q). apply weqb_iff in Q. subst. contradiction. Qed.

(** Removing process p keeps the invariant if the files of the others survive. *)
Lemma J_gone s p m : J s -> (forall q f, q <> p -> running s q f -> m f = fs s f) -> J (Sys m (pput (ph s) p Gone) (files s)).
Proof.
  intros (A & B & C) K. split; [|split].
  - intros q f R. unfold running in R. cbn [ph fs] in *. destruct (Nat.eq_dec p q) as [<-|N]; [rewrite pput_eq in R; destruct R; discriminate|]. rewrite (pput_neq _ _ _ _ N) in R. rewrite (K q f); [apply A; exact R|congruence|exact R].
  - intros q f. cbn [ph]. destruct (Nat.eq_dec p q) as [<-|N]; [rewrite pput_eq; split; discriminate|rewrite (pput_neq _ _ _ _ N); apply B].
  - exact C.
Qed.
Lemma J_step s a : J s -> (forall p f, a = Add_file p f -> forall argv0, f <> pid_file argv0) -> J (srun s (events a)).
Proof.
  intros I F. pose proof I as (A & B & C). destruct a as [p argv0 ok|p|p f|p|p]; unfold srun; cbn [events fold_left].
  - destruct (ph s p) as [|f|f|f|f|] eqn:P; try (cbn [sstep]; rewrite P; cbn [sstep]; rewrite P; exact I).
    + cbn [sstep]. rewrite P. destruct (fs s (pid_file argv0)) as [o|] eqn:E.
      * cbn [sstep ph]. rewrite pput_eq. apply J_gone; [exact I|reflexivity].
      * cbn [sstep ph]. rewrite pput_eq. cbn [fs ph files]. destruct ok.
        -- split; [|split].
           ++ intros q f R. unfold running in R. cbn [ph fs] in *. destruct (Nat.eq_dec p q) as [<-|N].
              ** rewrite pput_eq in R. destruct R as [R|R]; [|discriminate]. injection R as <-. rewrite fput_eq. split; [reflexivity|exists argv0; reflexivity].
              ** rewrite !(pput_neq _ _ _ _ N) in R. destruct (A q f R) as (X & Y). split; [|exact Y]. rewrite fput_neq; [exact X|intros K; congruence].
           ++ intros q f. cbn [ph]. destruct (Nat.eq_dec p q) as [<-|N]; [rewrite pput_eq; split; discriminate|rewrite !(pput_neq _ _ _ _ N); apply B].
           ++ exact C.
        -- split; [|split].
           ++ intros q f R. unfold running in R. cbn [ph fs] in *. destruct (Nat.eq_dec p q) as [<-|N]; [rewrite pput_eq in R; destruct R; discriminate|]. rewrite !(pput_neq _ _ _ _ N) in R. apply A; exact R.
           ++ intros q f. cbn [ph]. destruct (Nat.eq_dec p q) as [<-|N]; [rewrite pput_eq; split; discriminate|rewrite !(pput_neq _ _ _ _ N); apply B].
           ++ exact C.
    + destruct (B p f); contradiction.
  - cbn [sstep]. destruct (ph s p) as [|f|f|f|f|] eqn:P; try exact I. split; [|split].
    + intros q g R. unfold running in R. cbn [ph fs] in *. destruct (Nat.eq_dec p q) as [<-|N].
      * rewrite pput_eq in R. destruct R as [R|R]; [discriminate|]. injection R as <-. apply A. left; exact P.
      * rewrite !(pput_neq _ _ _ _ N) in R. apply A; exact R.
    + intros q g. cbn [ph]. destruct (Nat.eq_dec p q) as [<-|N]; [rewrite pput_eq; split; discriminate|rewrite !(pput_neq _ _ _ _ N); apply B].
    + exact C.
  - assert (G : J (Sys (fs s) (ph s) (pput (files s) p (files s p ++ [f])))).
    { split; [exact A|]. split; [exact B|]. intros q g argv0 H. cbn [files] in H. destruct (Nat.eq_dec p q) as [<-|N]; [rewrite pput_eq in H; apply in_app_or in H; destruct H as [H|[<-|[]]]; [exact (C p g argv0 H)|exact (F p f eq_refl argv0)]|rewrite (pput_neq _ _ _ _ N) in H; exact (C q g argv0 H)]. }
    cbn [sstep]. destruct (ph s p); try exact G. exact I.
  - assert (G : forall f, ph s p = Ready f -> J (Sys (unlink_all (fput (fs s) f None) (files s p)) (pput (ph s) p Gone) (files s))).
    { intros f P. apply J_gone; [exact I|]. intros q g N R. destruct (A q g R) as (X & argv0 & ->). destruct (A p f (or_intror P)) as (Y & _). rewrite unlink_all_out; [|intros H; exact (C p _ argv0 H eq_refl)]. apply fput_neq. intros ->. congruence. }
    assert (G2 : J (Sys (unlink_all (fs s) (files s p)) (pput (ph s) p Gone) (files s))).
    { apply J_gone; [exact I|]. intros q g N R. destruct (A q g R) as (X & argv0 & ->). apply unlink_all_out. intros H; exact (C p _ argv0 H eq_refl). }
    assert (Ext : forall m x, J (Sys m (pput (ph s) p Gone) (files s)) -> J (Sys m (pput (pput (ph s) p x) p Gone) (files s))).
    { intros m x (A' & B' & C'). assert (Q : forall q, pput (pput (ph s) p x) p Gone q = pput (ph s) p Gone q) by (intros q; unfold pput; destruct (Nat.eqb p q); reflexivity).
      split; [|split; [|exact C']]; [intros q f R; apply (A' q f); unfold running in *; cbn [ph] in *; rewrite Q in R; exact R|intros q f; cbn [ph]; rewrite Q; apply (B' q f)]. }
    cbn [sstep]. destruct (ph s p) as [|f|f|f|f|] eqn:P; cbn [sstep fs ph files]; try (apply J_gone; [exact I|reflexivity]).
    + apply Ext. exact G2.
    + apply Ext. apply G. reflexivity.
    + destruct (B p f); contradiction.
  - cbn [sstep]. apply J_gone; [exact I|reflexivity].
Qed.
Lemma J_serial m l : files_apart l -> J (srun (boot m) (serial l)).
Proof.
  unfold files_apart. intros F. assert (G : forall s, J s -> J (srun s (serial l))).
  { induction l as [|a l IH]; intros s H; [exact H|]. unfold serial, srun. cbn [flat_map]. rewrite fold_left_app. apply IH; [intros p f I; apply (F p f); right; exact I|]. apply J_step; [exact H|]. intros p f ->. apply (F p f). left; reflexivity. }
  apply G. split; [|split]; [intros p f [H|H]; discriminate|intros p f; split; discriminate|intros p f a []].
Qed.
(** At most one instance runs per pid file, and the file names it. *)
Theorem C57_single_instance m l p q f : files_apart l -> running (srun (boot m) (serial l)) p f -> running (srun (boot m) (serial l)) q f -> p = q.
Proof. intros F P Q. destruct (J_serial m l F) as (A & _). destruct (A _ _ P), (A _ _ Q). congruence. Qed.
Print Assumptions C57_single_instance.
Theorem C57_file_names_instance m l p f : files_apart l -> running (srun (boot m) (serial l)) p f -> fs (srun (boot m) (serial l)) f = Some p.
Proof. intros F P. destruct (J_serial m l F) as (A & _). apply (A _ _ P). Qed.
Print Assumptions C57_file_names_instance.
(** While an instance runs, a second start is refused and changes no file. *)
Theorem C57_refused m l p q f argv0 ok : files_apart l -> let s := srun (boot m) (serial l) in running s p f -> pid_file argv0 = f -> ph s q = Idle ->
  let s' := srun s (events (Start q argv0 ok)) in ph s' q = Gone /\ fs s' = fs s.
Proof.
  cbv zeta. intros F R E Q. pose proof (C57_file_names_instance m l p f F R) as X. revert X Q. generalize (srun (boot m) (serial l)). intros s X Q. unfold srun. cbn [events fold_left]. cbn [sstep]. rewrite Q, E, X. cbn [sstep ph]. rewrite pput_eq. cbn [ph fs]. rewrite pput_eq. split; reflexivity.
Qed.
Print Assumptions C57_refused.
(** Exit of a registered instance removes its pid file and its registered files, and nothing else. *)
Theorem C57_exit s p f : ph s p = Ready f -> forall g, fs (sstep s (SExit p)) g = if existsb (fun x => weqb x g) (f :: files s p) then None else fs s g.
Proof.
  intros P g. cbn [sstep]. rewrite P. cbn [fs existsb]. rewrite unlink_all_spec. unfold fput. destruct (weqb f g), (existsb (fun x => weqb x g) (files s p)); reflexivity.
Qed.
Print Assumptions C57_exit.
(** After that the program can be started again. *)
Theorem C57_restart s p f q argv0 : ph s p = Ready f -> ph s q = Idle -> pid_file argv0 = f ->
  let s' := srun s (events (Leave p) ++ events (Start q argv0 true)) in running s' q f /\ fs s' f = Some q.
Proof.
  intros P Q E. cbv zeta. assert (N : p <> q) by congruence. unfold srun. cbn [events app fold_left]. cbn [sstep]. rewrite P. cbn [sstep ph]. rewrite !(pput_neq _ _ _ _ N), Q.
  cbn [fs]. rewrite E, unlink_all_spec. assert (Z0 : (if existsb (fun g => weqb g f) (files s p) then None else fput (fs s) f None f) = None) by (rewrite fput_eq; destruct (existsb _ _); reflexivity).
  rewrite Z0. cbn [sstep ph]. rewrite pput_eq. unfold running. cbn [ph fs]. rewrite pput_eq, fput_eq. split; [left; reflexivity|reflexivity].
Qed.
Print Assumptions C57_restart.
(** Defect: starts that overlap both succeed. *)
Theorem C57_race_refuted : exists argv0 f, let s := srun (boot (fun _ => None)) [SCheck 1 argv0; SCheck 2 argv0; SCreate 1 true; SCreate 2 true] in running s 1 f /\ running s 2 f.
Proof. exists (lit "OpenBTS"), (lit "/var/run/OpenBTS.pid"). cbv zeta. split; left; vm_compute; reflexivity. Qed.
Print Assumptions C57_race_refuted.
(** Defect: Exit runs a second time (atexit after a signal, or two signals) and removes the file of
    the instance started in between; a third instance then starts beside it. *)
Theorem C57_second_exit_refuted : exists argv0 f, let s := srun (boot (fun _ => None))
    [SCheck 1 argv0; SCreate 1 true; SReady 1; SExit 1; SCheck 2 argv0; SCreate 2 true; SReady 2; SExit 1; SDie 1; SCheck 3 argv0; SCreate 3 true] in running s 2 f /\ running s 3 f.
Proof. exists (lit "OpenBTS"), (lit "/var/run/OpenBTS.pid"). cbv zeta. split; [right|left]; vm_compute; reflexivity. Qed.
Print Assumptions C57_second_exit_refuted.
(** Defect: a signal or an exit before mFile is set, or a crash, leaves the file: no later start succeeds
    although nothing runs. *)
Theorem C57_stale_refuted l argv0 : (l = [Start 1 argv0 true; Leave 1] \/ l = [Start 1 argv0 true; Finish_start 1; Crash 1]) ->
  let s := srun (boot (fun _ => None)) (serial (l ++ [Start 2 argv0 true])) in forall p f, ~ running s p f /\ ph s 2%nat = Gone.
Proof.
  cbv zeta. intros H p f. assert (Q : forall b : bool, (if b then @Gone else Gone) = Gone) by (intros []; reflexivity).
  destruct H as [-> | ->]; unfold serial, srun; cbn [app flat_map events fold_left]; unfold boot; repeat (cbn [sstep ph fs files unlink_all fold_left pput Nat.eqb]; rewrite ?fput_eq);
    (split; [|reflexivity]); unfold running; cbn [ph]; destruct p as [|[|[|p]]]; cbn [pput Nat.eqb]; intros [K|K]; discriminate.
Qed.
Print Assumptions C57_stale_refuted.
Example C57_example : let s := srun (boot (fun _ => None)) (serial [Start 1 (lit "/OpenBTS/OpenBTS") true; Finish_start 1; Add_file 1 (lit "/tmp/x"); Start 2 (lit "./OpenBTS") true; Leave 1; Start 3 (lit "OpenBTS") true]) in
  ph s 1%nat = Gone /\ ph s 2%nat = Gone /\ ph s 3%nat = Created (lit "/var/run/OpenBTS.pid") /\ fs s (lit "/var/run/OpenBTS.pid") = Some 3%nat.
Proof. vm_compute. repeat split. Qed.
(** A registered program runs its Exit once for every signal it can catch, except CHLD (17) and CONT (18). *)
Lemma register_loop_spec h n : forall i s, exists l, register_loop n h i s = registers s l /\ forall y, registered_for y l = if (i <=? y) && (y <? i + Z.of_nat n) && negb ((y =? 18) || (y =? 17)) then [h] else [].
Proof.
  induction n as [|n IH]; intros i s.
  - exists []. split; [reflexivity|]. intros y. replace ((i <=? y) && (y <? i + Z.of_nat 0)) with false by lia. reflexivity.
  - cbn [register_loop]. destruct (IH (i + 1) (if (i =? 18) || (i =? 17) then s else register s h i)) as (l & E & R). rewrite E. destruct ((i =? 18) || (i =? 17)) eqn:K.
    + exists l. split; [reflexivity|]. intros y. rewrite R. replace ((i + 1 <=? y) && (y <? i + 1 + Z.of_nat n) && negb ((y =? 18) || (y =? 17))) with ((i <=? y) && (y <? i + Z.of_nat (S n)) && negb ((y =? 18) || (y =? 17))) by lia. reflexivity.
    + exists ((h, i) :: l). split; [reflexivity|]. intros y. specialize (R y). unfold registered_for in *. cbn [filter snd]. destruct (i =? y) eqn:Q.
      * cbn [map fst]. rewrite R. replace ((i + 1 <=? y) && (y <? i + 1 + Z.of_nat n) && negb ((y =? 18) || (y =? 17))) with false by lia. replace ((i <=? y) && (y <? i + Z.of_nat (S n)) && negb ((y =? 18) || (y =? 17))) with true by lia. reflexivity.
      * rewrite R. replace ((i + 1 <=? y) && (y <? i + 1 + Z.of_nat n)) with ((i <=? y) && (y <? i + Z.of_nat (S n))) by lia. reflexivity.
Qed.
Theorem C57_signals h sig : mListHandlers (register_signals h sigs0) sig = (if (1 <=? sig) && (sig <=? 63) && negb (sig =? 17) && negb (sig =? 18) then [h] else []) /\
  (disp (register_signals h sigs0) sig = Ours <-> 1 <= sig <= 63 /\ ~ In sig [9; 17; 18; 19]).
Proof.
  unfold register_signals. destruct (register_loop_spec h (Z.to_nat (C_NSIG - 1)) 1 sigs0) as (l & E & R). rewrite E. specialize (R sig). change (Z.of_nat (Z.to_nat (C_NSIG - 1))) with 63 in R. split.
  - rewrite registers_list, R. cbn [mListHandlers sigs0 app]. destruct ((1 <=? sig) && (sig <? 64)) eqn:A; [|replace ((1 <=? sig) && (sig <=? 63)) with false by lia; reflexivity]. replace ((1 <=? sig) && (sig <? 1 + 63) && negb ((sig =? 18) || (sig =? 17))) with ((1 <=? sig) && (sig <=? 63) && negb (sig =? 17) && negb (sig =? 18)) by lia. reflexivity.
  - rewrite C58_caught. assert (X : existsb (fun e : Z * Z => snd e =? sig) l = (1 <=? sig) && (sig <? 1 + 63) && negb ((sig =? 18) || (sig =? 17))).
    { unfold registered_for in R. destruct ((1 <=? sig) && (sig <? 1 + 63) && negb ((sig =? 18) || (sig =? 17))).
      - apply existsb_exists. destruct (filter (fun e : Z * Z => snd e =? sig) l) as [|e t] eqn:F; [discriminate|]. exists e. apply (filter_In (fun e : Z * Z => snd e =? sig)). rewrite F. left; reflexivity.
      - destruct (existsb (fun e : Z * Z => snd e =? sig) l) eqn:Q; [|reflexivity]. apply existsb_exists in Q. apply (filter_In (fun e : Z * Z => snd e =? sig)) in Q || (destruct Q as (e & Q); apply (filter_In (fun e : Z * Z => snd e =? sig)) in Q); destruct (filter (fun e : Z * Z => snd e =? sig) l); [destruct Q|discriminate]. }
    rewrite X. cbn [In]. change (1 + 63) with 64. clear. destruct (Z.leb_spec 1 sig), (Z.ltb_spec sig 64), (Z.eqb_spec sig 9), (Z.eqb_spec sig 17), (Z.eqb_spec sig 18), (Z.eqb_spec sig 19); cbn [andb orb negb];
      (split; [intros Q; first [discriminate Q|split; [lia|intros [K|[K|[K|[K|[]]]]]; congruence]]|intros [Q1 Q2]; first [reflexivity|exfalso; first [lia|apply Q2; subst sig; tauto]]]).
Qed.
Print Assumptions C57_signals.
