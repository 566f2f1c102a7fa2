(** C85: the committer of the reporting tables and its end. *)
From Coq Require Import Lia.
From Verif Require Import Base BaseFacts UtilsModel SqlModel SqlProofs ConfigModel ReportModel ReportSpec ReportProps ReportLifeModel.
Local Open Scope Z_scope.

(** ** What a user sees *)
Definition table (w : world) (i : nat) : rstate := match nth_error (tabs w) i with Some g => content g | None => RState [] [] [] end.
(** How often [n] of table [i] is incremented. *)
Fixpoint incs (i : nat) (n : list Z) (l : list ev) : Z :=
  match l with
  | [] => 0
  | Incr j m :: t => (if Nat.eqb j i && weqb m n then 1 else 0) + incs i n t
  | _ :: t => incs i n t
  end.
(** No event constructs a table; all names are plain; all commands succeed. *)
Definition no_open (e : ev) : Prop := match e with Open _ _ => False | _ => True end.
Definition plain (e : ev) : Prop :=
  match e with
  | Create _ m _ _ | Incr _ m => no_column m
  | Step _ _ ok => ok = true
  | _ => True
  end.
Definition no_shutdown (e : ev) : Prop := match e with Shutdown O => False | _ => True end.
(** A process with the one table gReports, whose committer is at [p], and nothing being written unless it says so. *)
Definition alone (w : world) (p : pc) : Prop :=
  threads w = [p] /\ exists g, tabs w = [g] /\ opened g = true /\ well_formed (content g) /\ (p <> Write_ -> inflight (content g) = []).

(** ** Lemmas *)
Lemma run_app w a b : run w (a ++ b) = do w' <- run w a; run w' b.
Proof. revert w. induction a as [|e a IH]; intros w; [reflexivity|]. cbn [app run]. destruct (step w e) as [[w' r]| | |]; cbn [bind]; [apply IH|reflexivity..]. Qed.
Lemma next_none_own t l : Forall (fun e : nat * (list Z * Z) => fst e = t) l -> next t l = None -> l = [].
Proof. intros F N. destruct F as [|[u e] l E F]; [reflexivity|]. cbn [fst] in E. subst u. cbn [next] in N. rewrite Nat.eqb_refl in N. discriminate. Qed.
Lemma incs_nonneg i n l : 0 <= incs i n l.
Proof. induction l as [|e l IH]; cbn [incs]; [lia|]. destruct e; try exact IH. destruct (_ && _); lia. Qed.
Lemma incs_cons i n e l : incs i n (e :: l) = incs i n [e] + incs i n l.
Proof. destruct e; cbn [incs]; lia. Qed.
Definition arrow (g : tab) (p p' : pc) : Prop :=
  p' = p \/
  match p with
  | Start => p' = Check
  | Check => p' = Sleep /\ running g = Some true \/ p' = Done /\ running g = Some false
  | Sleep => p' = Take_
  | Take_ => p' = Write_
  | Write_ => p' = Check
  | Done => False
  end.
(** The one table, with everything in flight being the committer's. *)
Definition good (w : world) (p : pc) (g : tab) (n : list Z) : Prop :=
  threads w = [p] /\ tabs w = [g] /\ opened g = true /\ well_formed (content g) /\ created (content g) n /\
  Forall (fun e => fst e = 0%nat) (inflight (content g)) /\ (p <> Write_ -> inflight (content g) = []).
Lemma undisturbed_step s e s' n : well_formed s -> created s n -> undisturbed n e -> sum (batch s) n + increments n [e] < 2 ^ 32 -> rstep s e = Ok s' ->
  well_formed s' /\ created s' n /\ stored s' n + pending s' n = stored s n + pending s n + increments n [e] /\ sum (batch s') n <= sum (batch s) n + increments n [e].
Proof.
  intros W K U B R. pose proof (proj1 U) as C. split; [exact (wf_step _ _ _ _ W C R)|]. split; [exact (created_step _ _ _ _ K R)|].
  split; [|exact (proj2 (step_account s e s' n W C B R))].
  apply C54_conserved with (l := [e]); try assumption; [constructor; [exact U|constructor]|]. cbn [rrun]. rewrite R. reflexivity.
Qed.
Lemma sum_taken (m : counters) n : Forall (fun e => 0 <= snd e) m -> sum (map (fun e : list Z * Z => if 0 <? snd e then (fst e, 0) else e) m) n = 0.
Proof. intros F. induction F as [|[x v] m Hv F IH]; [reflexivity|]. cbn [map fst snd sum] in *. destruct (0 <? v) eqn:E; cbn [sum]; rewrite IH; destruct (weqb x n); lia. Qed.
Lemma batch_nonneg s : well_formed s -> Forall (fun e => 0 <= snd e) (batch s).
Proof. intros (B & _). eapply Forall_impl; [|exact B]. intros e [_ H]. lia. Qed.
Lemma next_own t l e r : Forall (fun x : nat * (list Z * Z) => fst x = t) l -> next t l = Some (e, r) -> Forall (fun x => fst x = t) r.
Proof. intros F N. destruct (next_spec _ _ _ _ N) as (l1 & l2 & -> & ->). apply Forall_app in F. destruct F as [F1 F2]. apply Forall_app. split; [exact F1|]. inversion F2; assumption. Qed.

Lemma good_step w p g n e w' r : good w p g n -> plain e -> no_open e -> sum (batch (content g)) n + incs 0 n [e] < 2 ^ 32 -> step w e = Ok (w', r) ->
  exists p' g', good w' p' g' n /\ arrow g p p' /\
    stored (content g') n + pending (content g') n = stored (content g) n + pending (content g) n + incs 0 n [e] /\
    sum (batch (content g')) n <= sum (batch (content g)) n + incs 0 n [e] /\
    (p = Take_ -> p' = Write_ -> sum (batch (content g')) n = 0).
Proof.
  intros (T & G & O & W & K & F & I) P N B H. destruct e as [d ok|i m now ok|i m|i|t now ok]; cbn [no_open] in N; [destruct N| | | |]; cbn [step] in H.
  - unfold on in H. rewrite G in H. destruct i as [|i]; [|destruct i; discriminate H]. cbn [nth_error] in H. apply bind_ok in H. destruct H as ((g', r') & H & E). apply Ok_inj in E. apply pair_equal_spec in E. destruct E as [E _]. subst w'.
    apply bind_ok in H. destruct H as ((g1, r1) & H & E). apply Ok_inj in E. apply pair_equal_spec in E. destruct E as [E _]. subst g'. unfold create_ in H. apply bind_ok in H. destruct H as (s & H & E). apply Ok_inj in E. apply pair_equal_spec in E. destruct E as [E _]. subst g1.
    destruct (undisturbed_step (content g) (RCreate m now (ok && opened g)) s n W K) as (W' & K' & A1 & A2); [split; [exact P|exact Logic.I]|exact B|exact H|].
    exists p, (Tab (opened g) (running g) s). cbn [upd content opened running tabs threads incs increments] in *. split; [|split; [left; reflexivity|split; [exact A1|split; [exact A2|intros -> E; discriminate E]]]].
    unfold good. cbn [threads tabs opened content]. unfold create in H. apply bind_ok in H. destruct H as (_ & _ & H). apply bind_ok in H. destruct H as (_ & _ & H). apply Ok_inj in H. subst s. cbn [inflight]. repeat split; try assumption; try apply W'.
  - unfold on in H. rewrite G in H. destruct i as [|i]; [|destruct i; discriminate H]. cbn [nth_error incr_] in H. cbn [bind] in H. apply Ok_inj in H. apply pair_equal_spec in H. destruct H as [E _]. subst w'.
    destruct (undisturbed_step (content g) (RIncr m) (incr (content g) m) n W K) as (W' & K' & A1 & A2); [split; [exact P|exact Logic.I]| |reflexivity|].
    { cbn [incs Nat.eqb andb] in B. exact B. }
    exists p, (Tab (opened g) (running g) (incr (content g) m)). cbn [upd content opened running tabs threads incs increments Nat.eqb andb] in *. split; [|split; [left; reflexivity|split; [exact A1|split; [exact A2|intros -> E; discriminate E]]]].
    unfold good. cbn [threads tabs opened content incr inflight]. repeat split; try assumption; try apply W'.
  - unfold on in H. rewrite G in H. destruct i as [|i]; [|destruct i; discriminate H]. cbn [nth_error bind] in H. apply Ok_inj in H. apply pair_equal_spec in H. destruct H as [E _]. subst w'.
    exists p, (shutdown g). cbn [shutdown content opened incs upd] in *. split; [|split; [left; reflexivity|split; [lia|split; [lia|intros -> E; discriminate E]]]].
    unfold good. cbn [threads tabs opened content]. repeat split; try assumption; apply W.
  - rewrite T, G in H. destruct t as [|t]; [|destruct t; discriminate H]. cbn [nth_error] in H. apply bind_ok in H. destruct H as ((g', p') & H & E). apply Ok_inj in E. apply pair_equal_spec in E. destruct E as [E _]. subst w'. cbn [plain] in P. subst ok.
    exists p', g'. cbn [incs] in *. unfold good. cbn [threads tabs upd]. destruct p; cbn [advance] in H.
    + apply Ok_inj in H. apply pair_equal_spec in H. destruct H as [<- <-]. cbn [opened content]. repeat split; try assumption; try apply W; try lia; [intros _; apply I; discriminate|right; reflexivity|discriminate].
    + destruct (running g) as [[]|] eqn:Rn; [| |discriminate H]; apply Ok_inj in H; apply pair_equal_spec in H; destruct H as [<- <-]; (repeat split; try assumption; try apply W; try lia; [intros _; apply I; discriminate|right|discriminate]).
      * left. split; [reflexivity|exact Rn].
      * right. split; [reflexivity|exact Rn].
    + apply Ok_inj in H. apply pair_equal_spec in H. destruct H as [<- <-]. repeat split; try assumption; try apply W; try lia; [intros _; apply I; discriminate|right; reflexivity|discriminate].
    + apply Ok_inj in H. apply pair_equal_spec in H. destruct H as [<- <-]. cbn [opened content].
      destruct (undisturbed_step (content g) (RTake 0) (take (content g) 0) n W K) as (W' & K' & A1 & A2); [split; exact Logic.I|cbn [increments]; lia|reflexivity|]. cbn [increments] in A1, A2.
      repeat split; try assumption; try apply W'; try lia.
      * cbn [take inflight]. apply Forall_app. split; [exact F|]. apply Forall_map. apply Forall_forall. intros x _. reflexivity.
      * intros X. contradiction X. reflexivity.
      * right. reflexivity.
      * intros _ _. cbn [take batch]. apply sum_taken. apply batch_nonneg, W.
    + destruct (next 0 (inflight (content g))) as [[e rs]|] eqn:Nx.
      * apply bind_ok in H. destruct H as (s & H & E). apply Ok_inj in E. apply pair_equal_spec in E. destruct E as [<- <-]. cbn [opened content].
        destruct (undisturbed_step (content g) (RWrite 0 now true) s n W K) as (W' & K' & A1 & A2); [split; [exact Logic.I|reflexivity]|cbn [increments]; lia|cbn [rstep]; rewrite O in H; exact H|]. cbn [increments] in A1, A2.
        repeat split; try assumption; try apply W'; try lia.
        -- unfold write in H. rewrite Nx in H. destruct e as (m, v). apply bind_ok in H. destruct H as (_ & _ & H). apply bind_ok in H. destruct H as (q & _ & H). apply Ok_inj in H. subst s. cbn [inflight]. exact (next_own _ _ _ _ F Nx).
        -- intros X. contradiction X. reflexivity.
        -- left. reflexivity.
        -- discriminate.
      * apply Ok_inj in H. apply pair_equal_spec in H. destruct H as [<- <-]. repeat split; try assumption; try apply W; try lia; [intros _; exact (next_none_own _ _ F Nx)|right; reflexivity|discriminate].
    + apply Ok_inj in H. apply pair_equal_spec in H. destruct H as [<- <-]. repeat split; try assumption; try apply W; try lia; [left; reflexivity|discriminate].
Qed.
(** Along a run that begins before a commit: either it still has not taken anything, or what is
    left in the batch came later. *)
Lemma good_run l : forall w p g n w', good w p g n -> Forall plain l -> Forall no_open l -> sum (batch (content g)) n + incs 0 n l < 2 ^ 32 -> run w l = Ok w' ->
  exists p' g', good w' p' g' n /\
    stored (content g') n + pending (content g') n = stored (content g) n + pending (content g) n + incs 0 n l /\
    sum (batch (content g')) n <= sum (batch (content g)) n + incs 0 n l /\
    (p = Sleep \/ p = Take_ -> p' = Sleep \/ p' = Take_ \/ sum (batch (content g')) n <= incs 0 n l).
Proof.
  induction l as [|e l IH]; intros w p g n w' Gd P N B R.
  - cbn [run] in R. apply Ok_inj in R. subst w'. exists p, g. cbn [incs]. repeat split; try apply Gd; try lia. intros [->| ->]; [left|right; left]; reflexivity.
  - cbn [run] in R. apply bind_ok in R. destruct R as ((w1, r) & S & R). pose proof (Forall_inv P) as P1. pose proof (Forall_inv_tail P) as P2. pose proof (Forall_inv N) as N1. pose proof (Forall_inv_tail N) as N2. rewrite incs_cons in *. pose proof (incs_nonneg 0 n l).
    destruct (good_step _ _ _ _ _ _ _ Gd P1 N1 ltac:(lia) S) as (p1 & g1 & Gd1 & Ar & A1 & A2 & A3).
    destruct (IH w1 p1 g1 n w' Gd1 P2 N2 ltac:(lia) R) as (p' & g' & Gd' & B1 & B2 & B3). exists p', g'. split; [exact Gd'|]. split; [lia|]. split; [lia|].
    pose proof (incs_nonneg 0 n [e]). intros [->| ->].
    + destruct Ar as [->|Ar]; [destruct (B3 (or_introl eq_refl)) as [X|[X|X]]; [left|right; left|right; right]; try exact X; lia|]. subst p1. destruct (B3 (or_intror eq_refl)) as [X|[X|X]]; [left|right; left|right; right]; try exact X; lia.
    + destruct Ar as [->|Ar]; [destruct (B3 (or_intror eq_refl)) as [X|[X|X]]; [left|right; left|right; right]; try exact X; lia|]. cbn in Ar. subst p1. specialize (A3 eq_refl eq_refl). right. right. lia.
Qed.
Lemma alone_good w p n : alone w p -> p <> Write_ -> created (table w 0) n -> exists g, good w p g n /\ table w 0 = content g.
Proof.
  intros (T & g & G & O & W & I) Np K. exists g. unfold table in *. rewrite G in *. cbn [nth_error] in *. split; [|reflexivity].
  unfold good. repeat split; try assumption; try apply W; try exact (fun _ => I Np). rewrite (I Np). constructor.
Qed.
Lemma good_table w p g n : good w p g n -> table w 0 = content g.
Proof. intros (_ & G & _). unfold table. rewrite G. reflexivity. Qed.

(** ** The theorems *)
(** Nothing counts twice and nothing gets lost on the way: with gReports alone and its database
    working, every increment of a created counter is stored or still pending. *)
Theorem C85_conserved w p l w' n : alone w p -> p <> Write_ -> created (table w 0) n -> Forall plain l -> Forall no_open l -> pending (table w 0) n + incs 0 n l < 2 ^ 32 -> run w l = Ok w' ->
  stored (table w' 0) n + pending (table w' 0) n = stored (table w 0) n + pending (table w 0) n + incs 0 n l.
Proof.
  intros A Np K P N B R. destruct (alone_good w p n A Np K) as (g & Gd & E). rewrite E in *.
  assert (I : inflight (content g) = []) by (apply Gd; exact Np). unfold pending in B. rewrite I in B. cbn [map sum] in B.
  destruct (good_run l w p g n w' Gd P N ltac:(lia) R) as (p' & g' & Gd' & A1 & _). rewrite (good_table _ _ _ _ Gd'). exact A1.
Qed.
Print Assumptions C85_conserved.
(** What was incremented before the committer woke up is stored when it next looks at the
    flag, and hence also when it has ended. *)
Theorem C85_delivered w p l w' p' n : alone w p -> p = Sleep \/ p = Take_ -> created (table w 0) n -> Forall plain l -> Forall no_open l -> pending (table w 0) n + incs 0 n l < 2 ^ 32 -> run w l = Ok w' ->
  threads w' = [p'] -> p' = Check \/ p' = Done -> stored (table w 0) n + pending (table w 0) n <= stored (table w' 0) n.
Proof.
  intros A Pp K P N B R T Pq. assert (Np : p <> Write_) by (destruct Pp as [->| ->]; discriminate). destruct (alone_good w p n A Np K) as (g & Gd & E). rewrite E in *.
  assert (I : inflight (content g) = []) by (apply Gd; exact Np). unfold pending in B. rewrite I in B. cbn [map sum] in B.
  destruct (good_run l w p g n w' Gd P N ltac:(lia) R) as (q & g' & Gd' & A1 & A2 & A3). rewrite (good_table _ _ _ _ Gd').
  assert (q = p') by (destruct Gd' as (T' & _); congruence). subst q.
  assert (I' : inflight (content g') = []) by (apply Gd'; destruct Pq as [->| ->]; discriminate).
  assert (X : sum (batch (content g')) n <= incs 0 n l) by (destruct (A3 Pp) as [Y|[Y|Y]]; [destruct Pq as [Q|Q]; congruence..|exact Y]).
  unfold pending in A1. rewrite I, I' in A1. cbn [map sum] in A1. unfold pending. rewrite I. cbn [map sum]. lia.
Qed.
Print Assumptions C85_delivered.

(** What each event does to the flag of gReports, to a thread and to the tables. *)
Definition flag (w : world) : option bool := match tabs w with g :: _ => running g | [] => None end.
Lemma step_thread w e w' r t p : step w e = Ok (w', r) -> nth_error (threads w) t = Some p ->
  match e with
  | Step u now ok => exists g rest g' q q', tabs w = g :: rest /\ tabs w' = g' :: rest /\ nth_error (threads w) u = Some q /\ advance g q u now ok = Ok (g', q') /\ nth_error (threads w') t = Some (if Nat.eqb u t then q' else p)
  | _ => nth_error (threads w') t = Some p
  end.
Proof.
  intros H T. destruct e as [d ok|i m now ok|i m|i|u now ok]; cbn [step] in H.
  - apply Ok_inj in H. apply pair_equal_spec in H. destruct H as [<- _]. cbn [open threads]. destruct ok; [|exact T]. rewrite nth_error_app1; [exact T|]. apply nth_error_Some. rewrite T. discriminate.
  - unfold on in H. destruct (nth_error (tabs w) i); [|discriminate]. apply bind_ok in H. destruct H as ((g', r') & _ & E). apply Ok_inj in E. apply pair_equal_spec in E. destruct E as [<- _]. exact T.
  - unfold on in H. destruct (nth_error (tabs w) i); [|discriminate]. apply bind_ok in H. destruct H as ((g', r') & _ & E). apply Ok_inj in E. apply pair_equal_spec in E. destruct E as [<- _]. exact T.
  - unfold on in H. destruct (nth_error (tabs w) i); [|discriminate]. apply bind_ok in H. destruct H as ((g', r') & _ & E). apply Ok_inj in E. apply pair_equal_spec in E. destruct E as [<- _]. exact T.
  - destruct (nth_error (threads w) u) as [q|] eqn:U; [|discriminate]. destruct (tabs w) as [|g rest]; [discriminate|]. apply bind_ok in H. destruct H as ((g', q') & H & E). apply Ok_inj in E. apply pair_equal_spec in E. destruct E as [<- _].
    exists g, rest, g', q, q'. cbn [tabs threads]. repeat split; try assumption. destruct (Nat.eqb_spec u t) as [<-|X].
    + rewrite nth_error_upd_eq; [reflexivity|]. apply nth_error_Some. rewrite U. discriminate.
    + rewrite nth_error_upd_neq; [exact T|congruence].
Qed.
Lemma step_flag w e w' r g rest : step w e = Ok (w', r) -> tabs w = g :: rest ->
  match e with
  | Shutdown O => flag w' = Some false
  | Step u now ok => nth_error (threads w) u = Some Start /\ flag w' = Some true \/ nth_error (threads w) u <> Some Start /\ flag w' = flag w
  | _ => flag w' = flag w
  end /\ tabs w' <> [].
Proof.
  intros H G. unfold flag. rewrite G. destruct e as [d ok|i m now ok|i m|i|u now ok]; cbn [step] in H.
  - apply Ok_inj in H. apply pair_equal_spec in H. destruct H as [<- _]. cbn [open tabs]. rewrite G. split; [reflexivity|discriminate].
  - unfold on in H. rewrite G in H. destruct (nth_error (g :: rest) i) as [h|] eqn:I; [|discriminate]. apply bind_ok in H. destruct H as ((g', r') & H & E). apply Ok_inj in E. apply pair_equal_spec in E. destruct E as [<- _]. cbn [tabs].
    apply bind_ok in H. destruct H as ((g1, r1) & H & E). apply Ok_inj in E. apply pair_equal_spec in E. destruct E as [E _]. subst g'. unfold create_ in H. apply bind_ok in H. destruct H as (s & _ & E). apply Ok_inj in E. apply pair_equal_spec in E. destruct E as [<- _].
    destruct i as [|i]; cbn [upd nth_error] in *; [injection I as <-; split; [reflexivity|discriminate]|split; [reflexivity|discriminate]].
  - unfold on in H. rewrite G in H. destruct (nth_error (g :: rest) i) as [h|] eqn:I; [|discriminate]. cbn [incr_ bind] in H. apply Ok_inj in H. apply pair_equal_spec in H. destruct H as [<- _]. cbn [tabs].
    destruct i as [|i]; cbn [upd nth_error] in *; [injection I as <-; split; [reflexivity|discriminate]|split; [reflexivity|discriminate]].
  - unfold on in H. rewrite G in H. destruct (nth_error (g :: rest) i) as [h|] eqn:I; [|discriminate]. cbn [bind] in H. apply Ok_inj in H. apply pair_equal_spec in H. destruct H as [<- _]. cbn [tabs].
    destruct i as [|i]; cbn [upd nth_error shutdown running] in *; split; try reflexivity; discriminate.
  - destruct (nth_error (threads w) u) as [q|] eqn:U; [|discriminate]. rewrite G in H. apply bind_ok in H. destruct H as ((g', q') & H & E). apply Ok_inj in E. apply pair_equal_spec in E. destruct E as [<- _]. cbn [tabs]. split; [|discriminate].
    destruct q; cbn [advance] in H; [left|right; split; [discriminate|]..].
    + apply Ok_inj in H. apply pair_equal_spec in H. destruct H as [<- _]. split; reflexivity.
    + destruct (running g) as [[]|] eqn:Rn; [| |discriminate]; apply Ok_inj in H; apply pair_equal_spec in H; destruct H as [<- _]; exact Rn.
    + apply Ok_inj in H. apply pair_equal_spec in H. destruct H as [<- _]. reflexivity.
    + apply Ok_inj in H. apply pair_equal_spec in H. destruct H as [<- _]. reflexivity.
    + destruct (next u (inflight (content g))).
      * apply bind_ok in H. destruct H as (s & _ & E). apply Ok_inj in E. apply pair_equal_spec in E. destruct E as [<- _]. reflexivity.
      * apply Ok_inj in H. apply pair_equal_spec in H. destruct H as [<- _]. reflexivity.
    + apply Ok_inj in H. apply pair_equal_spec in H. destruct H as [<- _]. reflexivity.
Qed.
(** A committer that has not begun, or has begun with the flag set, never ends unless there is
    a shutdown afterwards: one that came before the committer began is lost. *)
Theorem C85_alive l : forall w w' t p, nth_error (threads w) t = Some p -> tabs w <> [] -> p = Start \/ flag w = Some true /\ p <> Done -> Forall no_shutdown l -> run w l = Ok w' ->
  nth_error (threads w') t <> Some Done.
Proof.
  induction l as [|e l IH]; intros w w' t p T G J N R.
  - cbn [run] in R. apply Ok_inj in R. subst w'. rewrite T. destruct J as [->|[_ J]]; congruence.
  - cbn [run] in R. apply bind_ok in R. destruct R as ((w1, r) & S & R). pose proof (Forall_inv N) as N1. pose proof (Forall_inv_tail N) as N2. destruct (tabs w) as [|g rest] eqn:E; [contradiction G; reflexivity|].
    destruct (step_flag _ _ _ _ _ _ S E) as [F G1]. pose proof (step_thread _ _ _ _ _ _ S T) as Q. destruct e as [d ok|i m now ok|i m|i|u now ok].
    + apply (IH w1 w' t p Q G1); try assumption. destruct J as [J|[J1 J2]]; [left; exact J|right; split; [congruence|exact J2]].
    + apply (IH w1 w' t p Q G1); try assumption. destruct J as [J|[J1 J2]]; [left; exact J|right; split; [congruence|exact J2]].
    + apply (IH w1 w' t p Q G1); try assumption. destruct J as [J|[J1 J2]]; [left; exact J|right; split; [congruence|exact J2]].
    + destruct i as [|i]; [destruct N1|]. apply (IH w1 w' t p Q G1); try assumption. destruct J as [J|[J1 J2]]; [left; exact J|right; split; [congruence|exact J2]].
    + destruct Q as (g0 & rest0 & g' & q & q' & E0 & E1 & U & A & Q). rewrite E in E0. injection E0 as <- <-. apply (IH w1 w' t _ Q G1); try assumption.
      destruct (Nat.eqb_spec u t) as [->|X].
      * assert (q = p) by congruence. subst q. right. destruct J as [->|[J1 J2]].
        -- destruct F as [[_ F]|[F _]]; [|contradiction F; assumption]. split; [exact F|]. cbn [advance] in A. apply Ok_inj in A. apply pair_equal_spec in A. destruct A as [_ <-]. discriminate.
        -- split; [destruct F as [[_ F]|[_ F]]; congruence|]. unfold flag in J1. rewrite E in J1. destruct p; cbn [advance] in A; try rewrite J1 in A.
           ++ apply Ok_inj in A. apply pair_equal_spec in A. destruct A as [_ <-]. discriminate.
           ++ apply Ok_inj in A. apply pair_equal_spec in A. destruct A as [_ <-]. discriminate.
           ++ apply Ok_inj in A. apply pair_equal_spec in A. destruct A as [_ <-]. discriminate.
           ++ apply Ok_inj in A. apply pair_equal_spec in A. destruct A as [_ <-]. discriminate.
           ++ destruct (next t (inflight (content g))).
              ** apply bind_ok in A. destruct A as (s & _ & A). apply Ok_inj in A. apply pair_equal_spec in A. destruct A as [_ <-]. discriminate.
              ** apply Ok_inj in A. apply pair_equal_spec in A. destruct A as [_ <-]. discriminate.
           ++ contradiction J2; reflexivity.
      * destruct J as [J|[J1 J2]]; [left; exact J|right; split; [destruct F as [[_ F]|[_ F]]; congruence|exact J2]].
Qed.
Print Assumptions C85_alive.

(** How often thread [t] takes what is pending. *)
Fixpoint takes (t : nat) (w : world) (l : list ev) : nat :=
  match l with
  | [] => 0
  | e :: r =>
      match e, nth_error (threads w) t with Step u _ _, Some Take_ => if Nat.eqb u t then 1 else 0 | _, _ => 0 end +
      match step w e with Ok (w', _) => takes t w' r | _ => 0 end
  end.
Definition ahead (p : pc) : nat := match p with Sleep | Take_ => 1 | _ => 0 end.
Lemma no_start_step w e w' r : step w e = Ok (w', r) -> no_open e -> ~ In Start (threads w) -> ~ In Start (threads w').
Proof.
  intros H N I. destruct e as [d ok|i m now ok|i m|i|u now ok]; cbn [step] in H; [destruct N| | | |].
  1-3: unfold on in H; destruct (nth_error (tabs w) i); [|discriminate]; apply bind_ok in H; destruct H as ((g', r') & _ & E); apply Ok_inj in E; apply pair_equal_spec in E; destruct E as [<- _]; exact I.
  destruct (nth_error (threads w) u) as [q|] eqn:U; [|discriminate]. destruct (tabs w) as [|g rest]; [discriminate|]. apply bind_ok in H. destruct H as ((g', q') & H & E). apply Ok_inj in E. apply pair_equal_spec in E. destruct E as [<- _]. cbn [threads].
  intros X. apply In_nth_error in X. destruct X as [k X]. destruct (Nat.eq_dec u k) as [<-|Y].
  - rewrite nth_error_upd_eq in X by (apply nth_error_Some; rewrite U; discriminate). injection X as ->. destruct q; cbn [advance] in H.
    + apply I. exact (nth_error_In _ _ U).
    + destruct (running g) as [[]|]; try discriminate H; apply Ok_inj in H; apply pair_equal_spec in H; destruct H as [_ H]; discriminate H.
    + apply Ok_inj in H; apply pair_equal_spec in H; destruct H as [_ H]; discriminate H.
    + apply Ok_inj in H; apply pair_equal_spec in H; destruct H as [_ H]; discriminate H.
    + destruct (next u (inflight (content g))); [apply bind_ok in H; destruct H as (s & _ & H)|]; apply Ok_inj in H; apply pair_equal_spec in H; destruct H as [_ H]; discriminate H.
    + apply Ok_inj in H; apply pair_equal_spec in H; destruct H as [_ H]; discriminate H.
  - rewrite nth_error_upd_neq in X by exact Y. apply I. exact (nth_error_In _ _ X).
Qed.
(** After a shutdown each committer that has begun commits at most once more, and not at all
    if it was not asleep or about to commit. *)
Theorem C85_stops l : forall w w' t p, nth_error (threads w) t = Some p -> flag w = Some false -> ~ In Start (threads w) -> Forall no_open l -> run w l = Ok w' ->
  (takes t w l <= ahead p)%nat.
Proof.
  induction l as [|e l IH]; intros w w' t p T Fl NS N R; [cbn [takes]; lia|].
  cbn [run] in R. apply bind_ok in R. destruct R as ((w1, r) & S & R). pose proof (Forall_inv N) as N1. pose proof (Forall_inv_tail N) as N2. cbn [takes]. rewrite S, T.
  destruct (tabs w) as [|g rest] eqn:E; [unfold flag in Fl; rewrite E in Fl; discriminate|]. destruct (step_flag _ _ _ _ _ _ S E) as [F _]. pose proof (step_thread _ _ _ _ _ _ S T) as Q. pose proof (no_start_step _ _ _ _ S N1 NS) as NS1.
  assert (Rg : running g = Some false) by (unfold flag in Fl; rewrite E in Fl; exact Fl).
  assert (F1 : flag w1 = Some false).
  { destruct e as [d ok|i m now ok|i m|i|u now ok]; [congruence..| |].
    - destruct i; [exact F|congruence].
    - destruct F as [[X _]|[_ F]]; [contradiction NS; exact (nth_error_In _ _ X)|congruence]. }
  destruct e as [d ok|i m now ok|i m|i|u now ok]; try (cbn [Nat.add]; exact (IH w1 w' t p Q F1 NS1 N2 R)).
  destruct Q as (g0 & rest0 & g' & q & q' & E0 & E1 & U & A & Q). rewrite E in E0. injection E0 as <- <-. specialize (IH w1 w' t _ Q F1 NS1 N2 R).
  destruct (Nat.eqb_spec u t) as [->|X]; [|destruct p; exact IH].
  assert (q = p) by congruence. subst q. destruct p; cbn [advance ahead] in *; try rewrite Rg in A.
  - contradiction NS. exact (nth_error_In _ _ T).
  - apply Ok_inj in A. apply pair_equal_spec in A. destruct A as [_ <-]. exact IH.
  - apply Ok_inj in A. apply pair_equal_spec in A. destruct A as [_ <-]. exact IH.
  - apply Ok_inj in A. apply pair_equal_spec in A. destruct A as [_ <-]. cbn [ahead] in IH. lia.
  - destruct (next t (inflight (content g))); [apply bind_ok in A; destruct A as (s & _ & A)|]; apply Ok_inj in A; apply pair_equal_spec in A; destruct A as [_ <-]; exact IH.
  - apply Ok_inj in A. apply pair_equal_spec in A. destruct A as [_ <-]. exact IH.
Qed.
Print Assumptions C85_stops.
(** ... and it ends: left to itself it is done after at most so many steps as it has entries to
    write, plus four. *)
Definition rest_of (p : pc) (s : rstate) : nat :=
  match p with
  | Done => 0
  | Check => 1
  | Write_ => 2 + length (inflight s)
  | Take_ => 3 + length (inflight s) + length (batch s)
  | Sleep => 4 + length (inflight s) + length (batch s)
  | Start => 0
  end.
Lemma filter_len {A} (f : A -> bool) l : (length (filter f l) <= length l)%nat.
Proof. induction l as [|x l IH]; cbn [filter length]; [lia|]. destruct (f x); cbn [length]; lia. Qed.
Theorem C85_ends l : forall w w' t p, nth_error (threads w) t = Some p -> p <> Start -> flag w = Some false -> run w (map (fun x => Step t (fst x) (snd x)) l) = Ok w' ->
  (4 + length (inflight (table w 0)) + length (batch (table w 0)) <= length l)%nat -> nth_error (threads w') t = Some Done.
Proof.
  enough (X : forall w w' t p, nth_error (threads w) t = Some p -> p <> Start -> flag w = Some false -> run w (map (fun x => Step t (fst x) (snd x)) l) = Ok w' ->
    (rest_of p (table w 0) <= length l)%nat -> nth_error (threads w') t = Some Done).
  { intros w w' t p T NS F R L. apply (X w w' t p T NS F R). destruct p; cbn [rest_of]; lia. }
  induction l as [|[now ok] l IH]; intros w w' t p T NS F R L.
  - cbn [map run] in R. apply Ok_inj in R. subst w'. destruct p; cbn [rest_of length] in L; try lia; [contradiction NS; reflexivity|exact T].
  - cbn [map run fst snd] in R. apply bind_ok in R. destruct R as ((w1, r) & S & R). destruct (tabs w) as [|g rest] eqn:E; [unfold flag in F; rewrite E in F; discriminate|].
    destruct (step_flag _ _ _ _ _ _ S E) as [F1 _]. assert (F2 : flag w1 = Some false) by (destruct F1 as [[X _]|[_ X]]; [rewrite T in X; injection X as ->; contradiction NS; reflexivity|congruence]).
    assert (Rg : running g = Some false) by (unfold flag in F; rewrite E in F; exact F).
    destruct (step_thread _ _ _ _ _ _ S T) as (g0 & rest0 & g' & q & q' & E0 & E1 & U & A & Q). rewrite E in E0. injection E0 as <- <-. rewrite Nat.eqb_refl in Q. assert (q = p) by congruence. subst q.
    assert (T0 : table w 0 = content g) by (unfold table; rewrite E; reflexivity). assert (T1 : table w1 0 = content g') by (unfold table; rewrite E1; reflexivity). rewrite T0 in L. cbn [length] in L.
    assert (D : q' <> Start /\ (rest_of q' (content g') <= length l)%nat).
    { destruct p; cbn [advance rest_of] in *; try rewrite Rg in A.
      - contradiction NS; reflexivity.
      - apply Ok_inj in A. apply pair_equal_spec in A. destruct A as [<- <-]. split; [discriminate|cbn [rest_of]; lia].
      - apply Ok_inj in A. apply pair_equal_spec in A. destruct A as [<- <-]. split; [discriminate|cbn [rest_of]; lia].
      - apply Ok_inj in A. apply pair_equal_spec in A. destruct A as [<- <-]. split; [discriminate|]. cbn [rest_of content take inflight]. rewrite app_length, map_length. pose proof (filter_len (fun e : list Z * Z => 0 <? snd e) (batch (content g))). lia.
      - destruct (next t (inflight (content g))) as [[[m v] rs]|] eqn:Nx.
        + apply bind_ok in A. destruct A as (s & H & A). apply Ok_inj in A. apply pair_equal_spec in A. destruct A as [<- <-]. split; [discriminate|]. unfold write in H. rewrite Nx in H. apply bind_ok in H. destruct H as (_ & _ & H). apply bind_ok in H. destruct H as (q & _ & H). apply Ok_inj in H. subst s.
          cbn [rest_of content inflight]. destruct (next_spec _ _ _ _ Nx) as (l1 & l2 & X & ->). rewrite X in L. rewrite app_length in *. cbn [length] in L. lia.
        + apply Ok_inj in A. apply pair_equal_spec in A. destruct A as [<- <-]. split; [discriminate|cbn [rest_of]; lia].
      - apply Ok_inj in A. apply pair_equal_spec in A. destruct A as [<- <-]. split; [discriminate|cbn [rest_of]; lia]. }
    apply (IH w1 w' t q' Q); try assumption; [apply D|rewrite T1; apply D].
Qed.
Print Assumptions C85_ends.

(** Only the committers store anything, only for gReports, and only when it could be opened. *)
Lemma value_created s m now ok s' n : create s m now ok = Ok s' -> stored s' n = stored s n.
Proof.
  intros H. unfold create in H. apply bind_ok in H. destruct H as (_ & _ & H). apply bind_ok in H. destruct H as (_ & _ & H). apply Ok_inj in H. subst s'. unfold stored. cbn [db].
  destruct ok; [|reflexivity]. destruct (get (db s) m) as [v|] eqn:G; [reflexivity|]. unfold value. rewrite get_app. destruct (get (db s) n); [reflexivity|]. destruct (weqb m n); reflexivity.
Qed.
Lemma nth_upd {A} (l : list A) i x j y : nth_error l i = Some y -> nth_error (upd l i x) j = if Nat.eqb i j then Some x else nth_error l j.
Proof.
  intros H. destruct (Nat.eqb_spec i j) as [<-|N]; [apply nth_error_upd_eq; apply nth_error_Some; rewrite H; discriminate|apply nth_error_upd_neq; exact N].
Qed.
Lemma step_table w e w' r i g : step w e = Ok (w', r) -> nth_error (tabs w) i = Some g ->
  exists g', nth_error (tabs w') i = Some g' /\ opened g' = opened g /\
    match e with
    | Create j m now ok => if Nat.eqb j i then create (content g) m now (ok && opened g) = Ok (content g') else g' = g
    | Incr j m => if Nat.eqb j i then content g' = incr (content g) m else g' = g
    | Shutdown j => content g' = content g
    | Open _ _ => g' = g
    | Step u now ok => match i with O => exists q q', nth_error (threads w) u = Some q /\ advance g q u now ok = Ok (g', q') | S _ => g' = g end
    end.
Proof.
  intros H G. destruct e as [d ok|j m now ok|j m|j|u now ok]; cbn [step] in H.
  - apply Ok_inj in H. apply pair_equal_spec in H. destruct H as [<- _]. exists g. cbn [open tabs]. rewrite nth_error_app1 by (apply nth_error_Some; rewrite G; discriminate). repeat split; assumption.
  - unfold on in H. destruct (nth_error (tabs w) j) as [h|] eqn:J; [|discriminate]. apply bind_ok in H. destruct H as ((g', r') & H & E). apply Ok_inj in E. apply pair_equal_spec in E. destruct E as [<- _]. cbn [tabs]. rewrite (nth_upd _ _ _ _ _ J).
    apply bind_ok in H. destruct H as ((g1, r1) & H & E). apply Ok_inj in E. apply pair_equal_spec in E. destruct E as [E _]. subst g'. unfold create_ in H. apply bind_ok in H. destruct H as (s & H & E). apply Ok_inj in E. apply pair_equal_spec in E. destruct E as [<- _].
    destruct (Nat.eqb_spec j i) as [->|X]; [|exists g; repeat split; assumption]. assert (h = g) by congruence. subst h. eexists. split; [reflexivity|]. split; [reflexivity|exact H].
  - unfold on in H. destruct (nth_error (tabs w) j) as [h|] eqn:J; [|discriminate]. cbn [incr_ bind] in H. apply Ok_inj in H. apply pair_equal_spec in H. destruct H as [<- _]. cbn [tabs]. rewrite (nth_upd _ _ _ _ _ J).
    destruct (Nat.eqb_spec j i) as [->|X]; [|exists g; repeat split; assumption]. assert (h = g) by congruence. subst h. eexists. split; [reflexivity|]. split; reflexivity.
  - unfold on in H. destruct (nth_error (tabs w) j) as [h|] eqn:J; [|discriminate]. cbn [bind] in H. apply Ok_inj in H. apply pair_equal_spec in H. destruct H as [<- _]. cbn [tabs]. rewrite (nth_upd _ _ _ _ _ J).
    destruct (Nat.eqb_spec j i) as [->|X]; [|exists g; repeat split; assumption]. assert (h = g) by congruence. subst h. eexists. split; [reflexivity|]. split; reflexivity.
  - destruct (nth_error (threads w) u) as [q|] eqn:U; [|discriminate]. destruct (tabs w) as [|g0 rest]; [discriminate|]. apply bind_ok in H. destruct H as ((g', q') & H & E). apply Ok_inj in E. apply pair_equal_spec in E. destruct E as [<- _]. cbn [tabs].
    destruct i as [|i]; [|exists g; repeat split; exact G]. cbn [nth_error] in *. injection G as <-. exists g'. split; [reflexivity|]. split; [|exists q, q'; split; [reflexivity|exact H]].
    destruct q; cbn [advance] in H.
    + apply Ok_inj in H. apply pair_equal_spec in H. destruct H as [<- _]. reflexivity.
    + destruct (running g0) as [[]|]; [| |discriminate]; apply Ok_inj in H; apply pair_equal_spec in H; destruct H as [<- _]; reflexivity.
    + apply Ok_inj in H. apply pair_equal_spec in H. destruct H as [<- _]. reflexivity.
    + apply Ok_inj in H. apply pair_equal_spec in H. destruct H as [<- _]. reflexivity.
    + destruct (next u (inflight (content g0))).
      * apply bind_ok in H. destruct H as (s & _ & E). apply Ok_inj in E. apply pair_equal_spec in E. destruct E as [<- _]. reflexivity.
      * apply Ok_inj in H. apply pair_equal_spec in H. destruct H as [<- _]. reflexivity.
    + apply Ok_inj in H. apply pair_equal_spec in H. destruct H as [<- _]. reflexivity.
Qed.
Lemma table_nth w i g : nth_error (tabs w) i = Some g -> table w i = content g.
Proof. intros H. unfold table. rewrite H. reflexivity. Qed.
(** A table that could not be opened stores nothing, and neither does any table but gReports. *)
Theorem C85_stores l : forall w w' i g n, nth_error (tabs w) i = Some g -> (0 < i)%nat \/ opened g = false -> run w l = Ok w' -> stored (table w' i) n = stored (table w i) n.
Proof.
  induction l as [|e l IH]; intros w w' i g n G C R; cbn [run] in R; [apply Ok_inj in R; subst w'; reflexivity|].
  apply bind_ok in R. destruct R as ((w1, r) & S & R). destruct (step_table _ _ _ _ _ _ S G) as (g' & G' & O & H).
  rewrite (IH w1 w' i g' n G' ltac:(rewrite O; exact C) R), (table_nth _ _ _ G), (table_nth _ _ _ G'). destruct e as [d ok|j m now ok|j m|j|u now ok].
  - rewrite H. reflexivity.
  - destruct (Nat.eqb j i); [exact (value_created _ _ _ _ _ _ H)|rewrite H; reflexivity].
  - destruct (Nat.eqb j i); rewrite H; reflexivity.
  - rewrite H. reflexivity.
  - destruct i as [|i]; [|rewrite H; reflexivity]. destruct C as [C|C]; [lia|]. destruct H as (q & q' & _ & H). destruct q; cbn [advance] in H.
    + apply Ok_inj in H. apply pair_equal_spec in H. destruct H as [<- _]. reflexivity.
    + destruct (running g) as [[]|]; [| |discriminate]; apply Ok_inj in H; apply pair_equal_spec in H; destruct H as [<- _]; reflexivity.
    + apply Ok_inj in H. apply pair_equal_spec in H. destruct H as [<- _]. reflexivity.
    + apply Ok_inj in H. apply pair_equal_spec in H. destruct H as [<- _]. reflexivity.
    + destruct (next u (inflight (content g))) as [[[m v] rs]|] eqn:Nx.
      * apply bind_ok in H. destruct H as (s & H & E). apply Ok_inj in E. apply pair_equal_spec in E. destruct E as [<- _]. unfold write in H. rewrite Nx, C, andb_false_r in H. apply bind_ok in H. destruct H as (_ & _ & H). apply bind_ok in H. destruct H as (p & _ & H). apply Ok_inj in H. subst s. reflexivity.
      * apply Ok_inj in H. apply pair_equal_spec in H. destruct H as [<- _]. reflexivity.
    + apply Ok_inj in H. apply pair_equal_spec in H. destruct H as [<- _]. reflexivity.
Qed.
Print Assumptions C85_stores.
(** A table other than gReports keeps its increments pending for ever. *)
Theorem C85_pending l : forall w w' i g n, nth_error (tabs w) i = Some g -> (0 < i)%nat -> well_formed (content g) -> Forall plain l -> pending (table w i) n + incs i n l < 2 ^ 32 -> run w l = Ok w' ->
  pending (table w' i) n = pending (table w i) n + incs i n l.
Proof.
  induction l as [|e l IH]; intros w w' i g n G C W P B R; cbn [run] in R; [apply Ok_inj in R; subst w'; cbn [incs]; lia|].
  apply bind_ok in R. destruct R as ((w1, r) & S & R). pose proof (Forall_inv P) as P1. pose proof (Forall_inv_tail P) as P2. destruct (step_table _ _ _ _ _ _ S G) as (g' & G' & O & H). rewrite incs_cons in *. pose proof (incs_nonneg i n l). pose proof (incs_nonneg i n [e]).
  rewrite (table_nth _ _ _ G) in *.
  assert (NI : 0 <= sum (map snd (inflight (content g))) n) by (apply sum_nonneg; apply Forall_map; destruct W as (_ & W & _); eapply Forall_impl; [|exact W]; intros x [_ Hx]; lia).
  assert (X : well_formed (content g') /\ pending (content g') n = pending (content g) n + incs i n [e]).
  { assert (Same : content g' = content g -> incs i n [e] = 0 -> well_formed (content g') /\ pending (content g') n = pending (content g) n + incs i n [e]) by (intros -> ->; split; [exact W|lia]).
    assert (Real : forall re, counts n re -> increments n [re] = incs i n [e] -> loss (content g) n re = 0 -> rstep (content g) re = Ok (content g') -> stored (content g') n = stored (content g) n -> well_formed (content g') /\ pending (content g') n = pending (content g) n + incs i n [e]).
    { intros re C1 C2 C3 C4 C5. split; [exact (wf_step _ _ _ _ W C1 C4)|]. unfold pending in B. destruct (step_account _ _ _ _ W C1 ltac:(rewrite C2; lia) C4) as [A1 _]. lia. }
    destruct e as [d ok|j m now ok|j m|j|u now ok].
    - apply Same; [congruence|reflexivity].
    - destruct (Nat.eqb j i); [|apply Same; [congruence|reflexivity]]. apply (Real (RCreate m now (ok && opened g))); try reflexivity; [exact P1|exact H|exact (value_created _ _ _ _ _ _ H)].
    - destruct (Nat.eqb j i) eqn:J; [|apply Same; [congruence|cbn [incs]; rewrite J; reflexivity]]. apply (Real (RIncr m)); try reflexivity; [exact P1|cbn [increments incs]; rewrite J; reflexivity|cbn [rstep]; rewrite H; reflexivity|rewrite H; reflexivity].
    - apply Same; [congruence|reflexivity].
    - destruct i as [|i]; [lia|]. apply Same; [congruence|reflexivity]. }
  destruct X as [W' E]. pose proof (table_nth _ _ _ G') as T'. rewrite (IH w1 w' i g' n G' C W' P2 ltac:(rewrite T', E; lia) R), T', E. lia.
Qed.
Print Assumptions C85_pending.
(** Once all committers have ended nothing is stored any more, though incr still answers true. *)
Theorem C85_done l : forall w w' i n, Forall (eq Done) (threads w) -> Forall no_open l -> run w l = Ok w' -> (i < length (tabs w))%nat -> stored (table w' i) n = stored (table w i) n.
Proof.
  induction l as [|e l IH]; intros w w' i n D N R L; cbn [run] in R; [apply Ok_inj in R; subst w'; reflexivity|].
  apply bind_ok in R. destruct R as ((w1, r) & S & R). pose proof (Forall_inv N) as N1. pose proof (Forall_inv_tail N) as N2. apply nth_error_Some in L. destruct (nth_error (tabs w) i) as [g|] eqn:G; [|contradiction L; reflexivity].
  destruct (step_table _ _ _ _ _ _ S G) as (g' & G' & O & H).
  assert (D1 : Forall (eq Done) (threads w1)).
  { apply Forall_forall. intros x Hx. apply In_nth_error in Hx. destruct Hx as [k Hx]. destruct (nth_error (threads w) k) as [p|] eqn:K.
    - assert (p = Done) by (rewrite Forall_forall in D; symmetry; apply D; exact (nth_error_In _ _ K)). subst p. pose proof (step_thread _ _ _ _ _ _ S K) as Q. destruct e as [d ok|j m now ok|j m|j|u now ok]; try congruence.
      destruct Q as (g0 & rest & g1 & q & q' & E0 & E1 & U & A & Q). assert (q = Done) by (rewrite Forall_forall in D; symmetry; apply D; exact (nth_error_In _ _ U)). subst q. cbn [advance] in A. apply Ok_inj in A. apply pair_equal_spec in A. destruct A as [_ <-]. destruct (Nat.eqb u k); congruence.
    - exfalso. destruct e as [d ok|j m now ok|j m|j|u now ok]; cbn [step] in S; [destruct N1| | | |].
      1-3: unfold on in S; destruct (nth_error (tabs w) j); [|discriminate]; apply bind_ok in S; destruct S as ((g1, r') & _ & E); apply Ok_inj in E; apply pair_equal_spec in E; destruct E as [<- _]; cbn [threads] in Hx; congruence.
      destruct (nth_error (threads w) u) as [q|] eqn:U; [|discriminate]. destruct (tabs w) as [|g0 rest]; [discriminate|]. apply bind_ok in S. destruct S as ((g1, q') & S & E). apply Ok_inj in E. apply pair_equal_spec in E. destruct E as [<- _]. cbn [threads] in Hx.
      apply nth_error_None in K. assert (k < length (upd (threads w) u q'))%nat by (apply nth_error_Some; rewrite Hx; discriminate). rewrite upd_length in *. lia. }
  rewrite (IH w1 w' i n D1 N2 R) by (apply nth_error_Some; rewrite G'; discriminate). rewrite (table_nth _ _ _ G), (table_nth _ _ _ G'). destruct e as [d ok|j m now ok|j m|j|u now ok].
  - destruct N1.
  - destruct (Nat.eqb j i); [exact (value_created _ _ _ _ _ _ H)|rewrite H; reflexivity].
  - destruct (Nat.eqb j i); rewrite H; reflexivity.
  - rewrite H. reflexivity.
  - destruct i as [|i]; [|rewrite H; reflexivity]. destruct H as (q & q' & U & H). assert (q = Done) by (rewrite Forall_forall in D; symmetry; apply D; exact (nth_error_In _ _ U)). subst q. cbn [advance] in H. apply Ok_inj in H. apply pair_equal_spec in H. destruct H as [<- _]. reflexivity.
Qed.
Print Assumptions C85_done.
(** The answers: incr always says it succeeded; create does exactly if the table could be
    opened and the command succeeded. *)
Theorem C85_answers w i g m now ok w' r : nth_error (tabs w) i = Some g ->
  (step w (Incr i m) = Ok (w', r) -> r = Some true) /\
  (step w (Create i m now ok) = Ok (w', r) -> r = Some (ok && opened g)).
Proof.
  intros G. cbn [step]. unfold on. rewrite G. cbn [incr_ bind]. split; intros H.
  - apply Ok_inj in H. apply pair_equal_spec in H. destruct H as [_ <-]. reflexivity.
  - apply bind_ok in H. destruct H as ((g', r') & H & E). apply Ok_inj in E. apply pair_equal_spec in E. destruct E as [_ <-]. apply bind_ok in H. destruct H as ((g1, r1) & H & E). apply Ok_inj in E. apply pair_equal_spec in E. destruct E as [_ <-].
    unfold create_ in H. apply bind_ok in H. destruct H as (s & _ & E). apply Ok_inj in E. apply pair_equal_spec in E. destruct E as [_ <-]. reflexivity.
Qed.
Print Assumptions C85_answers.

(** No committer reads mReportRunning before it is set. *)
Definition set_ (w : world) : Prop := (tabs w = [] -> threads w = []) /\ forall t p, nth_error (threads w) t = Some p -> p <> Start -> flag w <> None.
Lemma set_step w e w' r : set_ w -> step w e = Ok (w', r) -> set_ w'.
Proof.
  intros [E I] H. destruct (tabs w) as [|g rest] eqn:G.
  - specialize (E eq_refl). destruct e as [d ok|i m now ok|i m|i|u now ok]; cbn [step] in H; unfold on in H; rewrite ?G in H.
    + apply Ok_inj in H. apply pair_equal_spec in H. destruct H as [<- _]. unfold open. rewrite G, E. split; [discriminate|]. cbn [threads]. intros t p X N. destruct ok; [|destruct t; discriminate]. destruct t as [|[|t]]; try discriminate. inversion X. congruence.
    + destruct i; discriminate.
    + destruct i; discriminate.
    + destruct i; discriminate.
    + rewrite E in H. destruct u; discriminate.
  - destruct (step_flag _ _ _ _ _ _ H G) as [F T]. split; [intros X; contradiction|]. intros t p X N. destruct (nth_error (threads w) t) as [q|] eqn:Q.
    + pose proof (step_thread _ _ _ _ _ _ H Q) as S. destruct e as [d ok|i m now ok|i m|i|u now ok].
      1-3: assert (q = p) by congruence; subst q; rewrite F; exact (I t p Q N).
      * assert (q = p) by congruence. subst q. destruct i; rewrite F; [discriminate|exact (I t p Q N)].
      * destruct F as [[_ ->]|[NS ->]]; [discriminate|]. destruct S as (g1 & rest1 & g2 & x & x' & _ & _ & X1 & _ & X2). rewrite X in X2. inversion X2. destruct (Nat.eqb_spec u t) as [->|D].
        -- apply (I t q Q). congruence.
        -- subst p. exact (I t q Q N).
    + assert (L : (length (threads w) <= t)%nat) by (apply nth_error_None; exact Q). destruct e as [d ok|i m now ok|i m|i|u now ok]; cbn [step] in H.
      * apply Ok_inj in H. apply pair_equal_spec in H. destruct H as [<- _]. cbn [open threads] in X. destruct ok; [|congruence]. rewrite nth_error_app2 in X by exact L. destruct (t - length (threads w))%nat as [|[|k]]; try discriminate. inversion X. congruence.
      * unfold on in H. destruct (nth_error (tabs w) i); [|discriminate]. apply bind_ok in H. destruct H as ((g', r') & _ & Y). apply Ok_inj in Y. apply pair_equal_spec in Y. destruct Y as [<- _]. cbn [threads] in X. congruence.
      * unfold on in H. destruct (nth_error (tabs w) i); [|discriminate]. apply bind_ok in H. destruct H as ((g', r') & _ & Y). apply Ok_inj in Y. apply pair_equal_spec in Y. destruct Y as [<- _]. cbn [threads] in X. congruence.
      * unfold on in H. destruct (nth_error (tabs w) i); [|discriminate]. apply bind_ok in H. destruct H as ((g', r') & _ & Y). apply Ok_inj in Y. apply pair_equal_spec in Y. destruct Y as [<- _]. cbn [threads] in X. congruence.
      * destruct (nth_error (threads w) u) as [q|] eqn:U; [|discriminate]. rewrite G in H. apply bind_ok in H. destruct H as ((g', q') & _ & Y). apply Ok_inj in Y. apply pair_equal_spec in Y. destruct Y as [<- _]. cbn [threads] in X.
        assert (Y : nth_error (upd (threads w) u q') t <> None) by congruence. apply nth_error_Some in Y. rewrite upd_length in Y. lia.
Qed.
Theorem C85_flag_set l w t p : run (World [] []) l = Ok w -> nth_error (threads w) t = Some p -> p <> Start -> exists b, flag w = Some b.
Proof.
  assert (X : forall l w w', set_ w -> run w l = Ok w' -> set_ w').
  { clear. induction l as [|e l IH]; intros w w' I R; cbn [run] in R; [apply Ok_inj in R; subst w'; exact I|]. apply bind_ok in R. destruct R as ((w1, r) & S & R). exact (IH w1 w' (set_step _ _ _ _ I S) R). }
  intros R T N. assert (I : set_ w) by (refine (X l _ w _ R); split; [reflexivity|intros [] ? Y; discriminate]).
  destruct (flag w) as [b|] eqn:F; [exists b; reflexivity|]. destruct (proj2 I t p T N F).
Qed.
Print Assumptions C85_flag_set.

(** ** Defects *)
Definition w0 : world := World [] [].
Definition a := lit "a".
Definition go (n : nat) : list ev := repeat (Step 0 0 true) n.
Definition show (r : res world) (i : nat) : option (Z * Z * list pc) := match r with Ok w => Some (stored (table w i) a, pending (table w i) a, threads w) | _ => None end.
(** An increment made before the shutdown, while a commit is being written, is never stored. *)
Theorem C85_shutdown_refuted : let l := [Open [] true; Create 0 a 0 true; Incr 0 a] ++ go 4 ++ [Incr 0 a; Shutdown 0] ++ go 3 in
  show (run w0 l) 0 = Some (1, 1, [Done]).
Proof. vm_compute. reflexivity. Qed.
Print Assumptions C85_shutdown_refuted.
(** A shutdown before the committer begins is lost. *)
Theorem C85_early_refuted l w : run w0 [Open [] true; Shutdown 0] = Ok w -> Forall no_shutdown l -> forall w', run w l = Ok w' -> nth_error (threads w') 0 <> Some Done.
Proof.
  intros H N w' R. apply Ok_inj in H. subst w. refine (C85_alive l _ w' 0 Start _ _ _ N R); [reflexivity|discriminate|left; reflexivity].
Qed.
Print Assumptions C85_early_refuted.
(** A second table has a thread of its own, which commits gReports; and what gReports counts
    is thrown away if its database could not be opened. *)
Theorem C85_second_refuted :
  show (run w0 ([Open [] true; Open [] true; Create 1 a 0 true; Incr 1 a] ++ go 21 ++ repeat (Step 1 0 true) 21)) 1 = Some (0, 1, [Check; Check]) /\
  show (run w0 ([Open [] false; Open [] true; Create 0 a 0 true; Incr 0 a] ++ go 4)) 0 = Some (0, 1, [Write_]) /\
  show (run w0 ([Open [] false; Open [] true; Create 0 a 0 true; Incr 0 a] ++ go 5)) 0 = Some (0, 0, [Write_]).
Proof. vm_compute. repeat split. Qed.
Print Assumptions C85_second_refuted.

(** Two increments, one before and one during the first round, both stored after the second;
    then a shutdown while asleep, which stores a third. *)
Example C85_ex :
  show (run w0 ([Open [] true; Create 0 a 0 true; Incr 0 a] ++ go 4 ++ [Incr 0 a] ++ go 2)) 0 = Some (1, 1, [Check]) /\
  show (run w0 ([Open [] true; Create 0 a 0 true; Incr 0 a] ++ go 4 ++ [Incr 0 a] ++ go 8)) 0 = Some (2, 0, [Sleep]) /\
  show (run w0 ([Open [] true; Create 0 a 0 true; Incr 0 a] ++ go 4 ++ [Incr 0 a] ++ go 8 ++ [Incr 0 a; Shutdown 0; Incr 0 a] ++ go 5)) 0 = Some (4, 0, [Done]).
Proof. vm_compute. repeat split. Qed.
