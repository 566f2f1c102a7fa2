(** C121: threads that use one socket. *)
From Verif Require Import Base BaseFacts SockThreadsModel.
Local Open Scope Z_scope.

(** ** What is claimed *)
Inductive reached (e : env) (d : option addr) (progs : list (list call)) : list obs -> state -> Prop :=
| reached_start : reached e d progs [] (start d progs)
| reached_step tr s l o s' : reached e d progs tr s -> step e s l = Ok (o, s') -> reached e d progs (tr ++ o) s'.
(** Read off the trace: the packets that arrived, what a thread has done, what it has read. *)
Definition arrivals (tr : list obs) : list packet := flat_map (fun o => match o with Arrived p => [p] | _ => [] end) tr.
Definition done (t : nat) (tr : list obs) : list (call * result) := flat_map (fun o => match o with Done u c r => if (u =? t)%nat then [(c, r)] else [] | _ => [] end) tr.
Definition bytes (x : call * result) : list (list Z) := match snd x with Data d => [d] | _ => [] end.
Definition reads (t : nat) (tr : list obs) : list (list Z) := flat_map bytes (done t tr).
(** The bytes read gives of a packet. *)
Definition seen (p : packet) : list Z := firstn (Z.to_nat 1500) (data p).
Definition reading (c : call) : Prop := c = Read \/ c = ReadTimeout.
Definition only_reader (progs : list (list call)) (t : nat) : Prop := forall u p c, u <> t -> nth_error progs u = Some p -> In c p -> ~ reading c.
Definition setting (c : call) : Prop := exists h p, c = Destination h p.
Definition only_setter (progs : list (list call)) (t : nat) : Prop := forall u p c, u <> t -> nth_error progs u = Some p -> In c p -> ~ setting c.
(** What a thread is in the middle of reading. *)
Definition inprogress (s : state) (t : nat) : list (list Z) :=
  match nth_error (threads s) t with Some (T _ (Copying p)) | Some (T _ (Copied p)) => [seen p] | _ => [] end.
Definition idle (s : state) (t : nat) : Prop := exists r, nth_error (threads s) t = Some (T r Idle).
(** Steps of one thread only. *)
Definition own (t : nat) (l : label) : Prop := l = Step t \/ l = Expire t.

(** ** Lemmas *)
Lemma nth_lt {A} (l : list A) t p : nth_error l t = Some p -> (t < length l)%nat.
Proof. intros H. apply nth_error_Some. congruence. Qed.
Lemma done_app t a b : done t (a ++ b) = done t a ++ done t b.
Proof. apply flat_map_app. Qed.
Lemma reads_app t a b : reads t (a ++ b) = reads t a ++ reads t b.
Proof. unfold reads. rewrite done_app. apply flat_map_app. Qed.
Lemma arrivals_app a b : arrivals (a ++ b) = arrivals a ++ arrivals b.
Proof. apply flat_map_app. Qed.
Lemma done_one t u c r : done t [Done u c r] = if (u =? t)%nat then [(c, r)] else [].
Proof. cbn. destruct (u =? t)%nat; reflexivity. Qed.
Lemma put_eq s t x y : nth_error (threads s) t = Some y -> nth_error (threads (put s t x)) t = Some x.
Proof. intros H. apply nth_error_upd_eq. exact (nth_lt _ _ _ H). Qed.
Lemma put_neq s t x u : u <> t -> nth_error (threads (put s t x)) u = nth_error (threads s) u.
Proof. intros H. apply nth_error_upd_neq. congruence. Qed.

(** All steps, one by one: the thread, its call, and the new state. *)
Inductive small (e : env) (s : state) : label -> list obs -> state -> Prop :=
| s_arrive p : small e s (Arrive p) [Arrived p] (with_queue s (queue s ++ [p]))
| s_other h s' : (s' = s \/ exists a, s' = with_static s a) -> small e s (Other h) [Looked h] s'
| s_expire t r : nth_error (threads s) t = Some (T (ReadTimeout :: r) Selecting) -> small e s (Expire t) [Done t ReadTimeout Nothing] (put s t (T r Idle))
| s_read t r : nth_error (threads s) t = Some (T (Read :: r) Idle) -> small e s (Step t) [] (put s t (T (Read :: r) Receiving))
| s_timeout t r : nth_error (threads s) t = Some (T (ReadTimeout :: r) Idle) -> small e s (Step t) [] (put s t (T (ReadTimeout :: r) Selecting))
| s_select t r : nth_error (threads s) t = Some (T (ReadTimeout :: r) Selecting) -> queue s <> [] -> small e s (Step t) [] (put s t (T (ReadTimeout :: r) Receiving))
| s_take t c r k p q : reading c -> k = Receiving \/ k = Blocked -> nth_error (threads s) t = Some (T (c :: r) k) -> queue s = p :: q -> small e s (Step t) [] (put (with_queue s q) t (T (c :: r) (Copying p)))
| s_again t c r : reading c -> nth_error (threads s) t = Some (T (c :: r) Receiving) -> queue s = [] -> nonblock s = true -> small e s (Step t) [Done t c Nothing] (put s t (T r Idle))
| s_block t c r : reading c -> nth_error (threads s) t = Some (T (c :: r) Receiving) -> queue s = [] -> nonblock s = false -> small e s (Step t) [] (put s t (T (c :: r) Blocked))
| s_copy t c r p : reading c -> nth_error (threads s) t = Some (T (c :: r) (Copying p)) -> small e s (Step t) [] (put (with_source s (Some (fst (from p)), snd (msource s))) t (T (c :: r) (Copied p)))
| s_copied t c r p : reading c -> nth_error (threads s) t = Some (T (c :: r) (Copied p)) -> small e s (Step t) [Done t c (Data (cut p))] (put (with_source s (fst (msource s), Some (snd (from p)))) t (T r Idle))
| s_back t m r ip : nth_error (threads s) t = Some (T (WriteBack m :: r) Idle) -> fst (msource s) = Some ip -> small e s (Step t) [] (put s t (T (WriteBack m :: r) (Sending (Some ip))))
| s_backed t m r ip port : nth_error (threads s) t = Some (T (WriteBack m :: r) (Sending (Some ip))) -> snd (msource s) = Some port -> small e s (Step t) [Done t (WriteBack m) (SentTo (ip, port))] (put s t (T r Idle))
| s_write t m r : nth_error (threads s) t = Some (T (Write m :: r) Idle) -> small e s (Step t) [] (put s t (T (Write m :: r) (Sending (fst (mdest s)))))
| s_written t m r ip : nth_error (threads s) t = Some (T (Write m :: r) (Sending ip)) -> small e s (Step t) [Done t (Write m) (match ip, snd (mdest s) with Some i, Some p => SentTo (i, p) | _, _ => Nothing end)] (put s t (T r Idle))
| s_send t a m r : nth_error (threads s) t = Some (T (Send a m :: r) Idle) -> small e s (Step t) [Done t (Send a m) (SentTo a)] (put s t (T r Idle))
| s_unknown t h p r : nth_error (threads s) t = Some (T (Destination h p :: r) Idle) -> lookup e h = None -> small e s (Step t) [Done t (Destination h p) Unit] (put s t (T r Idle))
| s_known t h p r ip : nth_error (threads s) t = Some (T (Destination h p :: r) Idle) -> lookup e h = Some ip -> reentrant e = true -> small e s (Step t) [] (put (with_dest s (Some ip, snd (mdest s))) t (T (Destination h p :: r) Setting))
| s_static t h p r ip : nth_error (threads s) t = Some (T (Destination h p :: r) Idle) -> lookup e h = Some ip -> reentrant e = false -> small e s (Step t) [] (put (with_static s (Some ip)) t (T (Destination h p :: r) Resolved))
| s_resolved t h p r : nth_error (threads s) t = Some (T (Destination h p :: r) Resolved) -> small e s (Step t) [] (put (with_dest s (static_ s, snd (mdest s))) t (T (Destination h p :: r) Setting))
| s_set t h p r : nth_error (threads s) t = Some (T (Destination h p :: r) Setting) -> small e s (Step t) [Done t (Destination h p) Unit] (put (with_dest s (fst (mdest s), Some p)) t (T r Idle))
| s_mode t c r b : (c = Nonblocking /\ b = true) \/ (c = Blocking /\ b = false) -> nth_error (threads s) t = Some (T (c :: r) Idle) -> small e s (Step t) [Done t c Unit] (put (with_mode s b) t (T r Idle)).
Lemma rd1 : reading Read. Proof. left; reflexivity. Qed.
Lemma rd2 : reading ReadTimeout. Proof. right; reflexivity. Qed.
Lemma step_small e s l o s' : step e s l = Ok (o, s') -> small e s l o s'.
Proof.
  destruct l as [t|t|p|h]; cbn [step].
  - destruct (nth_error (threads s) t) as [[[|c r] k]|] eqn:E; try discriminate. destruct c as [| |m|m|a m|h p| |], k as [| | | | | |p0|p0|ip]; cbn [advance]; try discriminate; unfold go, return_.
    + intros X; injection X as <- <-. apply s_read, E.
    + destruct (queue s) as [|p q] eqn:Qs; [destruct (nonblock s) eqn:B|]; intros X; injection X as <- <-; [eapply s_again|eapply s_block|eapply (s_take e s t _ r Receiving)]; eauto using rd1, rd2.
    + destruct (queue s) as [|p q] eqn:Qs; [discriminate|]; intros X; injection X as <- <-. eapply (s_take e s t _ r Blocked); eauto using rd1, rd2.
    + intros X; injection X as <- <-. eapply s_copy; [left; reflexivity|exact E].
    + intros X; injection X as <- <-. eapply s_copied; [left; reflexivity|exact E].
    + intros X; injection X as <- <-. apply s_timeout, E.
    + destruct (queue s) as [|p q] eqn:Qs; [discriminate|]; intros X; injection X as <- <-. apply s_select; [exact E|congruence].
    + destruct (queue s) as [|p q] eqn:Qs; [destruct (nonblock s) eqn:B|]; intros X; injection X as <- <-; [eapply s_again|eapply s_block|eapply (s_take e s t _ r Receiving)]; eauto using rd1, rd2.
    + destruct (queue s) as [|p q] eqn:Qs; [discriminate|]; intros X; injection X as <- <-. eapply (s_take e s t _ r Blocked); eauto using rd1, rd2.
    + intros X; injection X as <- <-. eapply s_copy; [right; reflexivity|exact E].
    + intros X; injection X as <- <-. eapply s_copied; [right; reflexivity|exact E].
    + destruct (fst (msource s)) as [ip|] eqn:F; [|discriminate]. intros X; injection X as <- <-. apply s_back; assumption.
    + destruct ip as [ip|]; [|discriminate]. destruct (snd (msource s)) as [port|] eqn:F; [|discriminate]. intros X; injection X as <- <-. apply s_backed; assumption.
    + intros X; injection X as <- <-. apply s_write, E.
    + intros X. pose proof (s_written e s t m r ip E) as W. destruct ip as [i|], (snd (mdest s)) as [p|]; injection X as <- <-; exact W.
    + intros X; injection X as <- <-. apply s_send, E.
    + destruct (lookup e h) as [ip|] eqn:H; [|intros X; injection X as <- <-; apply s_unknown; assumption]. destruct (reentrant e) eqn:R; intros X; injection X as <- <-; [eapply s_known|eapply s_static]; eassumption.
    + intros X; injection X as <- <-. apply s_resolved, E.
    + intros X; injection X as <- <-. apply s_set, E.
    + intros X; injection X as <- <-. apply s_mode; auto.
    + intros X; injection X as <- <-. apply s_mode; auto.
  - destruct (nth_error (threads s) t) as [[[|[] r] []]|] eqn:E; try discriminate. unfold return_. intros X; injection X as <- <-. apply s_expire, E.
  - intros X; injection X as <- <-. apply s_arrive.
  - intros X; injection X as <- <-. apply s_other. destruct (lookup e h); eauto.
Qed.

(** The calls of each thread return one after the other. *)
Theorem C121_program : forall e d progs tr s t p, reached e d progs tr s -> nth_error progs t = Some p -> exists r k, nth_error (threads s) t = Some (T r k) /\ map fst (done t tr) ++ r = p.
Proof.
  intros e d progs tr s t p H P. induction H as [|tr s l o s' H IH E]; [exists p, Idle; split; [|reflexivity]; cbn [start threads]; rewrite nth_error_map, P; reflexivity|].
  destruct IH as (r & k & N & D). apply step_small in E.
  assert (forall u x c0 r0 k0 o', nth_error (threads s) u = Some (T (c0 :: r0) k0) -> ((exists k1, x = T (c0 :: r0) k1) /\ o' = [] \/ x = T r0 Idle /\ exists y, o' = [Done u c0 y]) -> forall th, th = upd (threads s) u x -> exists r k, nth_error th t = Some (T r k) /\ map fst (done t (tr ++ o')) ++ r = p) as G.
  { intros u x c0 r0 k0 o' Nu C th ->. rewrite done_app, map_app. destruct (Nat.eq_dec u t) as [Q|Q].
    - subst u. rewrite N in Nu. injection Nu as -> ->. rewrite nth_error_upd_eq by exact (nth_lt _ _ _ N). destruct C as [((k1 & ->) & ->)|(-> & y & ->)]; [exists (c0 :: r0), k1|exists r0, Idle]; (split; [reflexivity|]); rewrite <- app_assoc; [exact D|]. rewrite done_one, Nat.eqb_refl. exact D.
    - rewrite nth_error_upd_neq by congruence. exists r, k. split; [exact N|]. rewrite <- app_assoc. destruct C as [(_ & ->)|(_ & y & ->)]; [exact D|]. rewrite done_one. destruct (Nat.eqb_spec u t); [contradiction|exact D]. }
  inversion E; subst; try (eapply G; [eassumption| |reflexivity]; solve [left; split; [eexists; reflexivity|reflexivity]|right; split; [reflexivity|eexists; reflexivity]]).
  - exists r, k. rewrite done_app, app_nil_r. auto.
  - exists r, k. rewrite done_app, app_nil_r. destruct H0 as [->|(a & ->)]; auto.
Qed.
Print Assumptions C121_program.

(** Every packet that arrived is read by one thread, in the order of arrival, or still waits; and every thread has read
    just the packets that it got, cut to 1500 bytes. *)
Definition got (t : nat) (l : list (nat * packet)) : list packet := map snd (filter (fun x => (fst x =? t)%nat) l).
Lemma got_snoc t l u p : got t (l ++ [(u, p)]) = got t l ++ if (u =? t)%nat then [p] else [].
Proof. unfold got. rewrite filter_app, map_app. cbn [filter fst]. destruct (u =? t)%nat; reflexivity. Qed.
Theorem C121_once : forall e d progs tr s, reached e d progs tr s ->
  exists l, arrivals tr = map snd l ++ queue s /\ forall t, map seen (got t l) = reads t tr ++ inprogress s t.
Proof.
  intros e d progs tr s H. induction H as [|tr s l o s' H IH E].
  { exists []. split; [reflexivity|]. intros t. unfold inprogress. cbn [start threads]. rewrite nth_error_map. destruct (nth_error progs t); reflexivity. }
  destruct IH as (L & A & R). apply step_small in E.
  assert (forall u x y s1 o', threads s1 = upd (threads s) u x -> nth_error (threads s) u = Some y -> (match at_ y with Copying _ | Copied _ => False | _ => True end) -> (match at_ x with Copying _ | Copied _ => False | _ => True end) ->
    (forall w, reads w o' = []) -> forall t, map seen (got t L) = reads t (tr ++ o') ++ inprogress s1 t) as QUIET.
  { intros u x y s1 o' T1 Nu Y X Z t. rewrite reads_app, Z, app_nil_r, R. f_equal. unfold inprogress. rewrite T1. destruct (Nat.eq_dec t u) as [Q|Q].
    - subst t. rewrite nth_error_upd_eq by exact (nth_lt _ _ _ Nu). rewrite Nu. destruct y as [? []], x as [? []]; cbn [at_] in *; tauto || reflexivity.
    - rewrite nth_error_upd_neq by congruence. reflexivity. }
  assert (forall u c y, match y with Data _ => False | _ => True end -> (forall w, reads w [Done u c y] = [])) as ND by (intros u c y Y w; unfold reads; rewrite done_one; destruct (u =? w)%nat; [|reflexivity]; destruct y; reflexivity || contradiction).
  inversion E; subst.
  all: try (exists L; split; [rewrite arrivals_app; etransitivity; [apply app_nil_r|exact A]|]; eapply QUIET; [reflexivity|eassumption|exact Logic.I|exact Logic.I|]; first [intros; reflexivity|apply ND; exact Logic.I]).
  - exists L. split; [rewrite arrivals_app; cbn [arrivals flat_map app with_queue queue]; rewrite A, <- app_assoc; reflexivity|]. intros t. rewrite reads_app, app_nil_r. apply R.
  - exists L. assert (queue s' = queue s /\ threads s' = threads s) as [Qs Ts] by (destruct H0 as [->|(a & ->)]; auto). split; [rewrite arrivals_app, Qs, app_nil_r; exact A|]. intros t. rewrite reads_app, app_nil_r. unfold inprogress. rewrite Ts. apply R.
  - (* take *) exists (L ++ [(t, p)]). split; [rewrite arrivals_app, app_nil_r, A, H3, map_app, <- app_assoc; reflexivity|]. intros w. rewrite got_snoc, map_app, R, app_nil_r. rewrite <- app_assoc. f_equal. unfold inprogress. cbn [put with_queue threads]. destruct (Nat.eqb_spec t w) as [Q|Q].
    + subst w. rewrite nth_error_upd_eq by exact (nth_lt _ _ _ H2). rewrite H2. destruct H1 as [->| ->]; reflexivity.
    + rewrite nth_error_upd_neq by congruence. apply app_nil_r.
  - (* copy *) exists L. split; [rewrite arrivals_app, app_nil_r; exact A|]. intros w. rewrite app_nil_r, R. f_equal. unfold inprogress. cbn [put with_source threads]. destruct (Nat.eq_dec w t) as [Q|Q]; [subst w; rewrite nth_error_upd_eq by exact (nth_lt _ _ _ H1); rewrite H1; reflexivity|rewrite nth_error_upd_neq by congruence; reflexivity].
  - (* copied *) exists L. split; [rewrite arrivals_app, app_nil_r; exact A|]. intros w. rewrite reads_app, R. unfold reads at 3. rewrite done_one. unfold inprogress. cbn [put with_source threads]. destruct (Nat.eqb_spec t w) as [Q|Q].
    + subst w. rewrite nth_error_upd_eq by exact (nth_lt _ _ _ H1). rewrite H1. cbn [flat_map bytes snd app]. rewrite app_nil_r. reflexivity.
    + rewrite nth_error_upd_neq by congruence. cbn [flat_map]. rewrite app_nil_r. reflexivity.
  - (* written *) exists L. split; [rewrite arrivals_app, app_nil_r; exact A|]. eapply QUIET; [reflexivity|eassumption|exact Logic.I|exact Logic.I|]. apply ND; destruct ip, (snd (mdest s)); exact Logic.I.
Qed.
Print Assumptions C121_once.

Lemma small_len e s l o s' : small e s l o s' -> length (threads s') = length (threads s).
Proof. intros E. inversion E; subst; cbn [put with_queue with_source with_dest with_mode with_static threads]; rewrite ?upd_length; try reflexivity. destruct H as [->|(a & ->)]; reflexivity. Qed.
Lemma reached_len e d progs tr s : reached e d progs tr s -> length (threads s) = length progs.
Proof. induction 1 as [|tr s l o s' H IH E]; [apply map_length|]. rewrite (small_len _ _ _ _ _ (step_small _ _ _ _ _ E)). exact IH. Qed.
(** The calls to come are of the program. *)
Lemma head_in e d progs tr s u c r k : reached e d progs tr s -> nth_error (threads s) u = Some (T (c :: r) k) -> exists p, nth_error progs u = Some p /\ In c p.
Proof.
  intros H N. destruct (nth_error progs u) as [p|] eqn:P.
  - exists p. split; [reflexivity|]. destruct (C121_program e d progs tr s u p H P) as (r' & k' & N' & D). rewrite N in N'. injection N' as <- <-. rewrite <- D. apply in_or_app. right. left. reflexivity.
  - apply nth_error_None in P. apply nth_lt in N. rewrite (reached_len _ _ _ _ _ H) in N. lia.
Qed.

(** The only thread that reads answers, with writeBack, to the sender of the packet it read last. *)
Definition srcof (l : list packet) : option Z * option Z := match rev l with [] => (None, None) | p :: _ => (Some (fst (from p)), Some (snd (from p))) end.
Lemma srcof_snoc l p : srcof (l ++ [p]) = (Some (fst (from p)), Some (snd (from p))).
Proof. unfold srcof. rewrite rev_app_distr. reflexivity. Qed.
Definition SRC (t : nat) (tr : list obs) (s : state) (l : list packet) : Prop :=
  match nth_error (threads s) t with
  | Some x =>
      match at_ x with
      | Copying p => exists l0, l = l0 ++ [p] /\ msource s = srcof l0 /\ reads t tr = map cut l0
      | Copied p => exists l0, l = l0 ++ [p] /\ fst (msource s) = Some (fst (from p)) /\ reads t tr = map cut l0
      | Sending ip => msource s = srcof l /\ reads t tr = map cut l /\ match todo x with WriteBack _ :: _ => ip = fst (srcof l) | _ => True end
      | _ => msource s = srcof l /\ reads t tr = map cut l
      end
  | None => msource s = srcof l /\ reads t tr = map cut l
  end.
Lemma src_inv e d progs tr s t : reached e d progs tr s -> only_reader progs t -> exists l, arrivals tr = l ++ queue s /\ SRC t tr s l.
Proof.
  intros H O. induction H as [|tr s l o s' H IH E].
  { exists []. split; [reflexivity|]. unfold SRC. cbn [start threads]. rewrite nth_error_map. destruct (nth_error progs t); cbn; auto. }
  destruct IH as (L & A & I1). apply step_small in E.
  assert (forall u c r k, nth_error (threads s) u = Some (T (c :: r) k) -> reading c -> u = t) as RD.
  { intros u c r k N C. destruct (Nat.eq_dec u t) as [Q|Q]; [exact Q|]. destruct (head_in _ _ _ _ _ _ _ _ _ H N) as (p & P & I2). contradiction (O u p c Q P I2 C). }
  assert (forall o', arrivals o' = [] -> forall q, queue s = q -> arrivals (tr ++ o') = L ++ q) as AR by (intros o' Z q <-; rewrite arrivals_app, Z, app_nil_r; exact A).
  (* steps of another thread *)
  assert (forall u x s1 o', threads s1 = upd (threads s) u x -> u <> t -> msource s1 = msource s -> reads t o' = [] -> SRC t (tr ++ o') s1 L) as OTHER.
  { intros u x s1 o' T1 D S1 Z. unfold SRC in *. rewrite T1, S1, reads_app, Z, app_nil_r, nth_error_upd_neq by congruence. exact I1. }
  assert (forall u c y, u <> t -> reads t [Done u c y] = []) as NU by (intros u c y D; unfold reads; rewrite done_one; destruct (Nat.eqb_spec u t); [contradiction|reflexivity]).
  assert (forall c y, match y with Data _ => False | _ => True end -> reads t [Done t c y] = []) as NT by (intros c y Y; unfold reads; rewrite done_one, Nat.eqb_refl; destruct y; reflexivity || contradiction).
  assert (forall y, nth_error (threads s) t = Some y -> match at_ y with Copying _ | Copied _ => False | _ => True end -> msource s = srcof L /\ reads t tr = map cut L) as PLAIN.
  { intros [td k] N Y. unfold SRC in I1. rewrite N in I1. cbn [at_] in *. destruct k; try contradiction; tauto. }
  (* steps of t to a place of no interest *)
  assert (forall y x s1 o', threads s1 = upd (threads s) t x -> nth_error (threads s) t = Some y -> match at_ y with Copying _ | Copied _ => False | _ => True end -> match at_ x with Copying _ | Copied _ => False | Sending _ => match todo x with WriteBack _ :: _ => False | _ => True end | _ => True end -> msource s1 = msource s -> reads t o' = [] -> SRC t (tr ++ o') s1 L) as SELF.
  { intros y x s1 o' T1 N Y X S1 Z. destruct (PLAIN y N Y) as [P1 P2]. unfold SRC. rewrite T1, S1, reads_app, Z, app_nil_r, nth_error_upd_eq by exact (nth_lt _ _ _ N). destruct x as [td []]; cbn [at_ todo] in *; try contradiction; auto. split; [exact P1|split; [exact P2|]]. destruct td as [|[] td]; try contradiction; exact Logic.I. }
  inversion E; subst.
  all: try (destruct (Nat.eq_dec t0 t) as [Qt|Qt]; [subst t0|]; [exists L; split; [apply AR; reflexivity|]; eapply SELF; [reflexivity|eassumption|exact Logic.I|exact Logic.I|reflexivity|first [reflexivity|apply NT; exact Logic.I]]|exists L; split; [apply AR; reflexivity|]; eapply OTHER; [reflexivity|exact Qt|reflexivity|first [reflexivity|apply NU; exact Qt]]]).
  - exists L. split; [rewrite arrivals_app; cbn [arrivals flat_map app with_queue queue]; rewrite A, <- app_assoc; reflexivity|]. unfold SRC in *. rewrite reads_app, app_nil_r. exact I1.
  - exists L. assert (queue s' = queue s /\ threads s' = threads s /\ msource s' = msource s) as (Qs & Ts & Ms) by (destruct H0 as [->|(a & ->)]; auto). split; [apply AR; [reflexivity|congruence]|]. unfold SRC in *. rewrite reads_app, app_nil_r, Ts, Ms. exact I1.
  - (* take *) assert (t0 = t) as -> by (eapply RD; eassumption). exists (L ++ [p]). split; [rewrite arrivals_app, app_nil_r, A, H3, <- app_assoc; reflexivity|]. unfold SRC. cbn [put with_queue threads msource]. rewrite nth_error_upd_eq by exact (nth_lt _ _ _ H2). exists L. split; [reflexivity|]. rewrite app_nil_r. apply (PLAIN _ H2). destruct H1 as [->| ->]; exact Logic.I.
  - (* copy *) assert (t0 = t) as -> by (eapply RD; eassumption). exists L. split; [apply AR; reflexivity|]. unfold SRC in *. rewrite H1 in I1. cbn [put with_source threads msource fst]. rewrite nth_error_upd_eq by exact (nth_lt _ _ _ H1). destruct I1 as (l0 & E1 & E2 & E3). exists l0. rewrite app_nil_r. auto.
  - (* copied *) assert (t0 = t) as -> by (eapply RD; eassumption). exists L. split; [apply AR; reflexivity|]. unfold SRC in *. rewrite H1 in I1. cbn [put with_source threads msource fst]. rewrite nth_error_upd_eq by exact (nth_lt _ _ _ H1). destruct I1 as (l0 & E1 & E2 & E3). assert (msource s = msource s /\ (fst (msource s), Some (snd (from p))) = srcof L /\ reads t (tr ++ [Done t c (Data (cut p))]) = map cut L) as (_ & X1 & X2).
    { split; [reflexivity|]. rewrite E1, srcof_snoc, E2. split; [reflexivity|]. rewrite reads_app, E3, map_app. unfold reads. rewrite done_one, Nat.eqb_refl. reflexivity. }
    cbn [at_]. split; [exact X1|exact X2].
  - (* back *) destruct (Nat.eq_dec t0 t) as [Qt|Qt]; [subst t0|exists L; split; [apply AR; reflexivity|]; eapply OTHER; [reflexivity|exact Qt|reflexivity|reflexivity]]. exists L. split; [apply AR; reflexivity|]. destruct (PLAIN _ H0 Logic.I) as [P1 P2]. unfold SRC. cbn [put threads msource]. rewrite nth_error_upd_eq by exact (nth_lt _ _ _ H0). cbn [at_ todo]. rewrite app_nil_r, <- P1. split; [reflexivity|split; [exact P2|symmetry; assumption]].
  - (* written *) destruct (Nat.eq_dec t0 t) as [Qt|Qt]; [subst t0|exists L; split; [apply AR; reflexivity|]; eapply OTHER; [reflexivity|exact Qt|reflexivity|apply NU; exact Qt]]. exists L; split; [apply AR; reflexivity|]; eapply SELF; [reflexivity|eassumption|exact Logic.I|exact Logic.I|reflexivity|]. apply NT. destruct ip, (snd (mdest s)); exact Logic.I.
Qed.
Theorem C121_reply : forall e d progs tr s t m r s', reached e d progs tr s -> only_reader progs t -> step e s (Step t) = Ok ([Done t (WriteBack m) r], s') ->
  exists l p rest, arrivals tr = l ++ p :: rest /\ reads t tr = map seen (l ++ [p]) /\ r = SentTo (from p).
Proof.
  intros e d progs tr s t m r s' H O E. destruct (src_inv e d progs tr s t H O) as (L & A & I1). apply step_small in E. unfold SRC in I1. inversion E; subst; try (match goal with X : reading _ |- _ => destruct X; discriminate | X : _ \/ _ |- _ => destruct X as [[X _]|[X _]]; discriminate end).
  - match goal with X : nth_error (threads s) t = _ |- _ => rewrite X in I1 end. destruct I1 as (I1 & I2 & I3). destruct (exists_last (l := L)) as (l & p & ->).
    + intros ->. cbn in I3. discriminate.
    + exists l, p, (queue s). split; [rewrite A, <- app_assoc; reflexivity|]. split; [exact I2|]. rewrite srcof_snoc in I1, I3. rewrite I1 in *. cbn [fst snd] in *. destruct p as [pd [pa pp]]. cbn in *. congruence.
Qed.
Print Assumptions C121_reply.

(** Nothing is undefined but a writeBack before any thread has read a packet. *)
Theorem C121_defined : forall e d progs tr s l, reached e d progs tr s -> step e s l = UB -> (exists u m r k, l = Step u /\ nth_error (threads s) u = Some (T (WriteBack m :: r) k)) /\ forall w, reads w tr = [].
Proof.
  intros e d progs tr s l H U.
  assert ((msource s = (Some (match fst (msource s) with Some i => i | None => 0 end), Some (match snd (msource s) with Some i => i | None => 0 end)) \/ forall w, reads w tr = []) /\ forall u r p, nth_error (threads s) u = Some (T r (Copied p)) -> fst (msource s) <> None) as [I1 _].
  { clear U l. induction H as [|tr s l o s' H IH E]; [split; [right; reflexivity|]; intros u r p N; cbn [start threads] in N; rewrite nth_error_map in N; destruct (nth_error progs u); discriminate|]. destruct IH as [IH1 IH2]. apply step_small in E.
    assert (forall u x s1 o', threads s1 = upd (threads s) u x -> match at_ x with Copied _ => False | _ => True end -> msource s1 = msource s -> (forall w, reads w o' = []) ->
      (msource s1 = (Some (match fst (msource s1) with Some i => i | None => 0 end), Some (match snd (msource s1) with Some i => i | None => 0 end)) \/ forall w, reads w (tr ++ o') = []) /\ forall u r p, nth_error (threads s1) u = Some (T r (Copied p)) -> fst (msource s1) <> None) as Q.
    { intros u x s1 o' T1 X S1 Z. rewrite S1. split; [destruct IH1 as [IH1|IH1]; [left; exact IH1|right; intros w; rewrite reads_app, IH1, Z; reflexivity]|]. intros w r p N. apply (IH2 w r p). rewrite T1 in N. destruct (Nat.eq_dec w u) as [D|D]; [subst w|rewrite nth_error_upd_neq in N by congruence; exact N].
      destruct (Nat.lt_ge_cases u (length (threads s))) as [K|K]; [rewrite nth_error_upd_eq in N by exact K; injection N as ->; contradiction|]. apply nth_lt in N. rewrite upd_length in N. lia. }
    assert (forall u c y, match y with Data _ => False | _ => True end -> (forall w, reads w [Done u c y] = [])) as ND by (intros u c y Y w; unfold reads; rewrite done_one; destruct (u =? w)%nat; [|reflexivity]; destruct y; reflexivity || contradiction).
    inversion E; subst.
    all: try (eapply Q; [reflexivity|exact Logic.I|reflexivity|first [intros; reflexivity|apply ND; exact Logic.I]]).
    - split; [destruct IH1 as [IH1|IH1]; [left; exact IH1|right; intros w; rewrite reads_app, IH1; reflexivity]|exact IH2].
    - assert (threads s' = threads s /\ msource s' = msource s) as (Ts & Ms) by (destruct H0 as [->|(a & ->)]; auto). rewrite Ts, Ms. split; [destruct IH1 as [IH1|IH1]; [left; exact IH1|right; intros w; rewrite reads_app, IH1; reflexivity]|exact IH2].
    - (* copy *) cbn [put with_source msource threads fst snd]. split; [|intros; discriminate]. destruct IH1 as [IH1|IH1]; [left; rewrite IH1; reflexivity|right; intros w; rewrite reads_app, IH1; reflexivity].
    - (* copied *) cbn [put with_source msource threads fst snd]. pose proof (IH2 _ _ _ H1) as F. destruct (fst (msource s)) as [i|]; [|congruence]. split; [left; reflexivity|intros; discriminate].
    - eapply Q; [reflexivity|exact Logic.I|reflexivity|apply ND; destruct ip, (snd (mdest s)); exact Logic.I]. }
  assert (exists u m r k, l = Step u /\ nth_error (threads s) u = Some (T (WriteBack m :: r) k) /\ (fst (msource s) = None \/ snd (msource s) = None)) as (u & m & r & k & -> & N & K).
  { destruct l as [t|t|p|h]; cbn [step] in U; try discriminate.
    - destruct (nth_error (threads s) t) as [[[|c r] k]|] eqn:N; try discriminate. destruct c as [| |m|m|a m|h p| |], k as [| | | | | |p0|p0|[ip|]]; cbn [advance] in U; unfold go, return_ in U; try discriminate; try (destruct (queue s); try discriminate; destruct (nonblock s); discriminate); try (destruct (snd (mdest s)); discriminate).
      + destruct (fst (msource s)) eqn:F; [discriminate|]. exists t, m, r, Idle. auto.
      + destruct (snd (msource s)) eqn:F; [discriminate|]. exists t, m, r, (Sending (Some ip)). auto.
      + destruct (lookup e h); [destruct (reentrant e)|]; discriminate.
    - destruct (nth_error (threads s) t) as [[[|[] r] []]|]; discriminate. }
  split; [exists u, m, r, k; auto|]. destruct I1 as [I1|I1]; [|exact I1]. destruct K as [K|K]; rewrite I1 in K; discriminate.
Qed.
Print Assumptions C121_defined.

(** ** Calls that return *)
(** Where a thread can be in a call. *)
Definition fits (x : thread) : Prop :=
  match todo x with
  | Read :: _ => match at_ x with Idle | Receiving | Blocked | Copying _ | Copied _ => True | _ => False end
  | ReadTimeout :: _ => match at_ x with Idle | Selecting | Receiving | Blocked | Copying _ | Copied _ => True | _ => False end
  | _ => True
  end.
Lemma fits_idle r : fits (T r Idle).
Proof. unfold fits. cbn [todo at_]. destruct r as [|[] r]; exact Logic.I. Qed.
Lemma fits_inv e d progs tr s u x : reached e d progs tr s -> nth_error (threads s) u = Some x -> fits x.
Proof.
  intros H. revert x. induction H as [|tr s l o s' H IH E]; intros x N; [cbn [start threads] in N; rewrite nth_error_map in N; destruct (nth_error progs u); [injection N as <-; apply fits_idle|discriminate]|]. apply step_small in E.
  assert (forall w y, threads s' = upd (threads s) w y -> fits y -> fits x) as G.
  { intros w y T1 Y. rewrite T1 in N. destruct (Nat.eq_dec w u) as [D|D]; [subst w|rewrite nth_error_upd_neq in N by congruence; exact (IH x N)]. destruct (Nat.lt_ge_cases u (length (threads s))) as [K|K]; [rewrite nth_error_upd_eq in N by exact K; injection N as <-; exact Y|]. apply nth_lt in N. rewrite upd_length in N. lia. }
  inversion E; subst; try (eapply G; [reflexivity|]; first [apply fits_idle|exact Logic.I|match goal with X : reading ?c |- _ => destruct X as [->| ->]; exact Logic.I end]).
  - exact (IH x N).
  - destruct H0 as [->|(a & ->)]; exact (IH x N).
Qed.
(** With one reader, select told the truth: there is something to read. *)
Lemma only_ready e d progs tr s t r k : reached e d progs tr s -> only_reader progs t -> nth_error (threads s) t = Some (T (ReadTimeout :: r) k) -> (k = Receiving -> queue s <> []) /\ k <> Blocked.
Proof.
  intros H O. revert r k. induction H as [|tr s l o s' H IH E]; intros r k N; [cbn [start threads] in N; rewrite nth_error_map in N; destruct (nth_error progs t); [injection N as _ <-; split; [discriminate|discriminate]|discriminate]|]. apply step_small in E.
  assert (forall u c r k, nth_error (threads s) u = Some (T (c :: r) k) -> reading c -> u = t) as RD.
  { intros u c r0 k0 N0 C. destruct (Nat.eq_dec u t) as [Q|Q]; [exact Q|]. destruct (head_in _ _ _ _ _ _ _ _ _ H N0) as (p & P & I2). contradiction (O u p c Q P I2 C). }
  assert (forall w y z, threads s' = upd (threads s) w y -> queue s' = queue s -> nth_error (threads s) w = Some z -> (w = t -> todo y = ReadTimeout :: r -> at_ y <> Receiving /\ at_ y <> Blocked) -> (k = Receiving -> queue s' <> []) /\ k <> Blocked) as G.
  { intros w y z T1 Q1 Nz Y. rewrite T1 in N. rewrite Q1. destruct (Nat.eq_dec w t) as [D|D]; [subst w|rewrite nth_error_upd_neq in N by congruence; exact (IH r k N)]. rewrite nth_error_upd_eq in N by exact (nth_lt _ _ _ Nz). injection N as ->. destruct (Y eq_refl eq_refl) as [Y1 Y2]. cbn [at_] in *. split; [intros X; contradiction|exact Y2]. }
  inversion E; subst; try (eapply G; [reflexivity|reflexivity|eassumption|cbn [todo at_]; intros; split; discriminate]).
  - destruct (IH r k N) as [I1 I2]. split; [|exact I2]. intros Z. cbn [with_queue queue]. specialize (I1 Z). destruct (queue s); [contradiction|discriminate].
  - destruct H0 as [->|(a & ->)]; exact (IH r k N).
  - assert (t0 = t) as -> by (eapply RD; [eassumption|apply rd2]). cbn [put threads] in N. rewrite nth_error_upd_eq in N by exact (nth_lt _ _ _ H0). injection N as <- <-. split; [intros _; exact H1|discriminate].
  - assert (t0 = t) as -> by (eapply RD; eassumption). cbn [put with_queue threads] in N. rewrite nth_error_upd_eq in N by exact (nth_lt _ _ _ H2). injection N as -> <- <-. split; discriminate.
  - assert (t0 = t) as -> by (eapply RD; eassumption). cbn [put threads] in N. rewrite nth_error_upd_eq in N by exact (nth_lt _ _ _ H1). injection N as -> <- <-. destruct (IH _ _ H1) as [X _]. contradiction (X eq_refl).
Qed.
(** read after the packet is taken. *)
Lemma run_one e s l o s' : step e s l = Ok (o, s') -> run e s [l] = Ok (o, s').
Proof. intros E. cbn [run]. rewrite E. cbn [bind run fst snd]. rewrite app_nil_r. reflexivity. Qed.
Lemma run_cons e s l o s1 ls o2 s2 : step e s l = Ok (o, s1) -> run e s1 ls = Ok (o2, s2) -> run e s (l :: ls) = Ok (o ++ o2, s2).
Proof. intros E F. cbn [run]. rewrite E. cbn [bind fst snd]. rewrite F. reflexivity. Qed.
Lemma finish_copied e s t c r p : reading c -> nth_error (threads s) t = Some (T (c :: r) (Copied p)) -> exists s', run e s [Step t] = Ok ([Done t c (Data (cut p))], s').
Proof. intros C N. eexists. apply run_one. cbn [step]. rewrite N. destruct C as [->| ->]; reflexivity. Qed.
Lemma finish_copying e s t c r p : reading c -> nth_error (threads s) t = Some (T (c :: r) (Copying p)) -> exists s', run e s [Step t; Step t] = Ok ([Done t c (Data (cut p))], s').
Proof.
  intros C N. destruct (finish_copied e (put (with_source s (Some (fst (from p)), snd (msource s))) t (T (c :: r) (Copied p))) t c r p C) as (s' & F); [cbn [put with_source threads]; apply nth_error_upd_eq; exact (nth_lt _ _ _ N)|].
  exists s'. eapply (run_cons e s (Step t) []); [|exact F]. cbn [step]. rewrite N. destruct C as [->| ->]; reflexivity.
Qed.
Lemma finish_take e s t c r k p q : reading c -> k = Receiving \/ k = Blocked -> nth_error (threads s) t = Some (T (c :: r) k) -> queue s = p :: q -> exists s', run e s [Step t; Step t; Step t] = Ok ([Done t c (Data (cut p))], s').
Proof.
  intros C K N Q1. destruct (finish_copying e (put (with_queue s q) t (T (c :: r) (Copying p))) t c r p C) as (s' & F); [cbn [put with_queue threads]; apply nth_error_upd_eq; exact (nth_lt _ _ _ N)|].
  exists s'. eapply (run_cons e s (Step t) []); [|exact F]. cbn [step]. rewrite N. destruct C as [->| ->], K as [->| ->]; cbn [advance]; rewrite Q1; reflexivity.
Qed.
Lemma own_step t : own t (Step t). Proof. left; reflexivity. Qed.
Lemma own_expire t : own t (Expire t). Proof. right; reflexivity. Qed.
Ltac owns := repeat constructor; first [apply own_step|apply own_expire].

(** A thread in read with a timeout that is the only reader is never held up: wherever it is and whatever the others
    do, its own next steps, at most four, end the call. *)
Theorem C121_returns : forall e d progs tr s t r k, reached e d progs tr s -> only_reader progs t -> nth_error (threads s) t = Some (T (ReadTimeout :: r) k) ->
  exists ls x s', Forall (own t) ls /\ (length ls <= 4)%nat /\ run e s ls = Ok ([Done t ReadTimeout x], s').
Proof.
  intros e d progs tr s t r k H O N. pose proof (fits_inv _ _ _ _ _ _ _ H N) as F. destruct (only_ready _ _ _ _ _ _ _ _ H O N) as [R B]. unfold fits in F. cbn [todo at_] in F. destruct k as [| | | | | |p|p|ip]; try contradiction.
  - exists [Step t; Expire t]. eexists Nothing, _. split; [owns|split; [cbn; lia|]]. eapply (run_cons e s (Step t) []); [cbn [step]; rewrite N; reflexivity|]. apply run_one. cbn [step]. rewrite (put_eq s t _ _ N). reflexivity.
  - exists [Expire t]. eexists Nothing, _. split; [owns|split; [cbn; lia|]]. apply run_one. cbn [step]. rewrite N. reflexivity.
  - destruct (queue s) as [|p q] eqn:Qs; [contradiction (R eq_refl); reflexivity|]. destruct (finish_take e s t _ r _ p q rd2 (or_introl eq_refl) N Qs) as (s' & X). eexists _, _, s'. split; [|split; [|exact X]]; [owns|cbn; lia].
  - destruct (finish_copying e s t _ r p rd2 N) as (s' & X). eexists _, _, s'. split; [|split; [|exact X]]; [owns|cbn; lia].
  - destruct (finish_copied e s t _ r p rd2 N) as (s' & X). eexists _, _, s'. split; [|split; [|exact X]]; [owns|cbn; lia].
Qed.
Print Assumptions C121_returns.
(** The mode last set by any thread. *)
Definition mode (tr : list obs) : bool := fold_left (fun b o => match o with Done _ Nonblocking _ => true | Done _ Blocking _ => false | _ => b end) tr false.
Lemma mode_inv e d progs tr s : reached e d progs tr s -> nonblock s = mode tr.
Proof.
  induction 1 as [|tr s l o s' H IH E]; [reflexivity|]. apply step_small in E. unfold mode. rewrite fold_left_app. fold (mode tr). rewrite <- IH.
  inversion E; subst; try reflexivity; try (match goal with X : reading _ |- _ => destruct X as [->| ->]; reflexivity end).
  - destruct H0 as [->|(a & ->)]; reflexivity.
  - destruct H0 as [[-> ->]|[-> ->]]; reflexivity.
Qed.
(** On a non-blocking socket that holds for both kinds of read and any number of readers. *)
Theorem C121_nonblocking : forall e d progs tr s t c r k, reached e d progs tr s -> mode tr = true -> reading c -> nth_error (threads s) t = Some (T (c :: r) k) -> k <> Blocked ->
  exists ls x s', Forall (own t) ls /\ (length ls <= 4)%nat /\ run e s ls = Ok ([Done t c x], s').
Proof.
  intros e d progs tr s t c r k H M C N B. rewrite <- (mode_inv _ _ _ _ _ H) in M. pose proof (fits_inv _ _ _ _ _ _ _ H N) as F. unfold fits in F. cbn [todo at_] in F.
  assert (forall s1, nth_error (threads s1) t = Some (T (c :: r) Receiving) -> nonblock s1 = true -> exists ls x s', Forall (own t) ls /\ (length ls <= 3)%nat /\ run e s1 ls = Ok ([Done t c x], s')) as RC.
  { intros s1 N1 M1. destruct (queue s1) as [|p q] eqn:Qs.
    - exists [Step t]. eexists Nothing, _. split; [owns|split; [cbn; lia|]]. apply run_one. cbn [step]. rewrite N1. destruct C as [->| ->]; cbn [advance]; rewrite Qs, M1; reflexivity.
    - destruct (finish_take e s1 t _ r _ p q C (or_introl eq_refl) N1 Qs) as (s' & X). eexists _, _, s'. split; [|split; [|exact X]]; [owns|cbn; lia]. }
  assert (forall s1, nth_error (threads s1) t = Some (T (c :: r) Idle) -> c = ReadTimeout -> exists s', run e s1 [Step t; Expire t] = Ok ([Done t c Nothing], s')) as TM.
  { intros s1 N1 ->. eexists. eapply (run_cons e s1 (Step t) []); [cbn [step]; rewrite N1; reflexivity|]. apply run_one. cbn [step]. rewrite (put_eq s1 t _ _ N1). reflexivity. }
  assert (c = ReadTimeout -> k = Selecting -> exists s', run e s [Expire t] = Ok ([Done t c Nothing], s')) as EX.
  { intros -> ->. eexists. apply run_one. cbn [step]. rewrite N. reflexivity. }
  destruct k as [| | | | | |p|p|ip].
  - destruct C as [C|C].
    + destruct (RC (put s t (T (c :: r) Receiving)) (put_eq s t _ _ N) M) as (ls & x & s' & A1 & A2 & A3). exists (Step t :: ls), x, s'. split; [constructor; [apply own_step|exact A1]|split; [cbn [length]; lia|]]. apply (run_cons e s (Step t) [] _ _ _ _ ltac:(cbn [step]; rewrite N; subst c; reflexivity) A3).
    + destruct (TM s N C) as (s' & X). eexists _, _, s'. split; [|split; [|exact X]]; [owns|cbn; lia].
  - destruct C as [->| ->]; contradiction.
  - destruct C as [->| ->]; contradiction.
  - destruct C as [->| ->]; [contradiction|]. destruct (EX eq_refl eq_refl) as (s' & X). eexists _, _, s'. split; [|split; [|exact X]]; [owns|cbn; lia].
  - destruct (RC s N M) as (ls & x & s' & A1 & A2 & A3). exists ls, x, s'. split; [exact A1|split; [lia|exact A3]].
  - congruence.
  - destruct (finish_copying e s t _ r p C N) as (s' & X). eexists _, _, s'. split; [|split; [|exact X]]; [owns|cbn; lia].
  - destruct (finish_copied e s t _ r p C N) as (s' & X). eexists _, _, s'. split; [|split; [|exact X]]; [owns|cbn; lia].
  - destruct C as [->| ->]; contradiction.
Qed.
Print Assumptions C121_nonblocking.

(** ** Destinations *)
(** The destination after calls of one thread, names that are not known left out. *)
Definition target (e : env) (d : option addr) (cs : list call) : option addr :=
  fold_left (fun a c => match c with Destination h p => match lookup e h with Some ip => Some (ip, p) | None => a end | _ => a end) cs d.
Definition halves (d : option addr) : option Z * option Z := (option_map fst d, option_map snd d).
Definition quiet (e : env) (tr : list obs) : Prop := reentrant e = true \/ forall h, ~ In (Looked h) tr.
Definition DST (e : env) (s : state) (t : nat) (D : option addr) : Prop :=
  match nth_error (threads s) t with
  | Some x =>
      match todo x with
      | Destination h p :: _ =>
          match at_ x with
          | Resolved => mdest s = halves D /\ static_ s = lookup e h /\ lookup e h <> None
          | Setting => fst (mdest s) = lookup e h /\ lookup e h <> None
          | _ => mdest s = halves D
          end
      | Write _ :: _ => mdest s = halves D /\ match at_ x with Sending ip => ip = option_map fst D | _ => True end
      | _ => mdest s = halves D
      end
  | None => mdest s = halves D
  end.
Lemma dst_idle e s t D r s1 : nth_error (threads s) t <> None -> threads s1 = upd (threads s) t (T r Idle) -> mdest s1 = halves D -> DST e s1 t D.
Proof.
  intros N T1 M. unfold DST. rewrite T1, nth_error_upd_eq by (apply nth_error_Some; exact N). cbn [todo at_]. destruct r as [|[] r]; auto.
Qed.
Lemma dst_plain e s t D c r k : DST e s t D -> nth_error (threads s) t = Some (T (c :: r) k) -> ~ setting c -> mdest s = halves D.
Proof. intros X N S1. unfold DST in X. rewrite N in X. cbn [todo at_] in X. destruct c; try tauto. contradiction S1. eexists _, _. reflexivity. Qed.
Lemma target_snoc e d l c : target e d (l ++ [c]) = match c with Destination h p => match lookup e h with Some ip => Some (ip, p) | None => target e d l end | _ => target e d l end.
Proof. unfold target. rewrite fold_left_app. reflexivity. Qed.
Lemma dst_inv e d progs tr s t : reached e d progs tr s -> only_setter progs t -> quiet e tr -> DST e s t (target e d (map fst (done t tr))).
Proof.
  intros H O. induction H as [|tr s l o s' H IH E]; intros QT.
  { unfold DST. cbn [start threads mdest]. rewrite nth_error_map. destruct (nth_error progs t) as [[|[] p]|]; cbn; auto. }
  assert (quiet e tr) as QT' by (destruct QT as [X|X]; [left; exact X|right; intros h I; apply (X h), in_or_app; left; exact I]). specialize (IH QT'). apply step_small in E.
  assert (forall u c r k, nth_error (threads s) u = Some (T (c :: r) k) -> setting c -> u = t) as ST.
  { intros u c r k N C. destruct (Nat.eq_dec u t) as [Q|Q]; [exact Q|]. destruct (head_in _ _ _ _ _ _ _ _ _ H N) as (p & P & I2). contradiction (O u p c Q P I2 C). }
  assert (forall o', (forall u c y, In (Done u c y) o' -> u <> t) -> done t (tr ++ o') = done t tr) as DN.
  { intros o' Z. rewrite done_app. assert (done t o' = []) as ->; [|apply app_nil_r]. clear -Z. induction o' as [|[u c y|p|h] o' I1]; [reflexivity|..]; cbn [done flat_map]; fold (done t o'); rewrite I1 by (intros u0 c0 y0 X; apply (Z u0 c0 y0); right; exact X); try reflexivity. rewrite app_nil_r. destruct (Nat.eqb_spec u t) as [Q|Q]; [contradiction (Z u c y (or_introl eq_refl) Q)|reflexivity]. }
  assert (forall o' s1, threads s1 = threads s -> mdest s1 = mdest s -> static_ s1 = static_ s -> (forall u c y, In (Done u c y) o' -> u <> t) -> DST e s1 t (target e d (map fst (done t (tr ++ o'))))) as SAME.
  { intros o' s1 T1 M1 S1 Z. rewrite (DN o' Z). unfold DST in *. rewrite T1, M1, S1. exact IH. }
  assert (forall u x s1 o', threads s1 = upd (threads s) u x -> u <> t -> mdest s1 = mdest s -> static_ s1 = static_ s -> (o' = [] \/ exists c y, o' = [Done u c y]) -> DST e s1 t (target e d (map fst (done t (tr ++ o'))))) as OTHER.
  { intros u x s1 o' T1 D M1 S1 Z. rewrite DN; [|intros w c y I; destruct Z as [->|(c' & y' & ->)]; [contradiction|destruct I as [I|[]]; congruence]]. unfold DST in *. rewrite T1, M1, S1, nth_error_upd_neq by congruence. exact IH. }
  (* a call of t other than Destination and Write goes on, or returns *)
  assert (forall c r k k1 s1, nth_error (threads s) t = Some (T (c :: r) k) -> ~ setting c -> (forall m, c <> Write m) -> threads s1 = upd (threads s) t (T (c :: r) k1) -> mdest s1 = mdest s -> DST e s1 t (target e d (map fst (done t (tr ++ []))))) as GO.
  { intros c r k k1 s1 N C W T1 M1. rewrite app_nil_r. pose proof (dst_plain _ _ _ _ _ _ _ IH N C) as P. unfold DST. rewrite T1, M1, nth_error_upd_eq by exact (nth_lt _ _ _ N). cbn [todo at_]. destruct c; try exact P; [contradiction (W m); reflexivity|contradiction C; eexists _, _; reflexivity]. }
  assert (forall c r k y s1, nth_error (threads s) t = Some (T (c :: r) k) -> ~ setting c -> threads s1 = upd (threads s) t (T r Idle) -> mdest s1 = mdest s -> DST e s1 t (target e d (map fst (done t (tr ++ [Done t c y]))))) as RET.
  { intros c r k y s1 N C T1 M1. pose proof (dst_plain _ _ _ _ _ _ _ IH N C) as P. rewrite done_app, done_one, Nat.eqb_refl, map_app. cbn [map fst]. rewrite target_snoc. eapply dst_idle; [rewrite N; discriminate|exact T1|]. rewrite M1, P. destruct c; try reflexivity. contradiction C. eexists _, _. reflexivity. }
  assert (forall c, reading c -> ~ setting c /\ forall m, c <> Write m) as RS by (intros c [->| ->]; (split; [intros (h & p & X); discriminate|discriminate])).
  inversion E; subst; try (destruct (Nat.eq_dec t0 t) as [Qt|Qt]; [subst t0|eapply OTHER; [reflexivity|exact Qt|reflexivity|reflexivity|eauto]]).
  all: try (eapply GO; [eassumption|first [apply RS; first [eassumption|apply rd1|apply rd2]|intros (? & ? & X); discriminate]|first [apply RS; first [eassumption|apply rd1|apply rd2]|discriminate]|reflexivity|reflexivity]).
  all: try (eapply RET; [eassumption|first [apply RS; first [eassumption|apply rd2]|intros (? & ? & X); discriminate|match goal with X : _ \/ _ |- _ => destruct X as [[-> _]|[-> _]]; intros (? & ? & X); discriminate end]|reflexivity|reflexivity]).
  - apply SAME; try reflexivity. intros u c y [I|[]]; discriminate.
  - destruct QT as [R|QT]; [|contradiction (QT h); apply in_or_app; right; left; reflexivity]. destruct H0 as [->|(a & ->)]; [apply SAME; try reflexivity; intros u c y [I|[]]; discriminate|]. rewrite DN by (intros u c y [I|[]]; discriminate).
    unfold DST in *. cbn [with_static threads mdest static_]. destruct (nth_error (threads s) t) as [[td k]|] eqn:N; [|exact IH]. cbn [todo at_] in *. destruct td as [|[] td]; try exact IH. destruct k; try exact IH. exfalso.
    (* with gethostbyname2_r the place Resolved is not reached *)
    clear -H N R. revert td host port N. induction H as [|tr s l o s' H IH E]; intros td host port N; [cbn [start threads] in N; rewrite nth_error_map in N; destruct (nth_error progs t); discriminate|]. apply step_small in E.
    assert (forall w y, threads s' = upd (threads s) w y -> at_ y <> Resolved -> False) as G.
    { intros w y T1 Y. rewrite T1 in N. destruct (Nat.eq_dec w t) as [D|D]; [subst w|rewrite nth_error_upd_neq in N by congruence; exact (IH _ _ _ N)]. destruct (Nat.lt_ge_cases t (length (threads s))) as [K|K]; [rewrite nth_error_upd_eq in N by exact K; injection N as ->; apply Y; reflexivity|]. apply nth_lt in N. rewrite upd_length in N. lia. }
    inversion E; subst; try (eapply G; [reflexivity|discriminate]); [exact (IH _ _ _ N)|destruct H0 as [->|(a & ->)]; exact (IH _ _ _ N)|congruence].
  - (* write *) rewrite app_nil_r. assert (~ setting (Write m)) as NS by (intros (? & ? & X); discriminate). pose proof (dst_plain _ _ _ _ _ _ _ IH H0 NS) as P. unfold DST. cbn [put threads mdest static_]. rewrite nth_error_upd_eq by exact (nth_lt _ _ _ H0). cbn [todo at_]. split; [exact P|]. rewrite P. reflexivity.
  - (* unknown *) unfold DST in IH. rewrite H0 in IH. cbn [todo at_] in IH. rewrite done_app, done_one, Nat.eqb_refl, map_app. cbn [map fst]. rewrite target_snoc, H1. eapply dst_idle; [rewrite H0; discriminate|reflexivity|exact IH].
  - (* known *) assert (t0 = t) as -> by (eapply ST; [eassumption|eexists _, _; reflexivity]). rewrite app_nil_r. unfold DST. cbn [put with_dest threads mdest static_]. rewrite nth_error_upd_eq by exact (nth_lt _ _ _ H0). cbn [todo at_ fst]. rewrite H1. split; [reflexivity|discriminate].
  - (* static *) assert (t0 = t) as -> by (eapply ST; [eassumption|eexists _, _; reflexivity]). rewrite app_nil_r. unfold DST in *. rewrite H0 in IH. cbn [todo at_] in IH. cbn [put with_static threads mdest static_]. rewrite nth_error_upd_eq by exact (nth_lt _ _ _ H0). cbn [todo at_ fst]. rewrite H1. split; [exact IH|split; [reflexivity|discriminate]].
  - (* resolved *) assert (t0 = t) as -> by (eapply ST; [eassumption|eexists _, _; reflexivity]). rewrite app_nil_r. unfold DST in *. rewrite H0 in IH. cbn [todo at_] in IH. cbn [put with_dest threads mdest static_]. rewrite nth_error_upd_eq by exact (nth_lt _ _ _ H0). cbn [todo at_ fst]. tauto.
  - (* set *) assert (t0 = t) as -> by (eapply ST; [eassumption|eexists _, _; reflexivity]). unfold DST in IH. rewrite H0 in IH. cbn [todo at_] in IH. destruct IH as [I1 I2]. rewrite done_app, done_one, Nat.eqb_refl, map_app. cbn [map fst]. rewrite target_snoc. destruct (lookup e h) as [ip|]; [|congruence]. eapply dst_idle; [rewrite H0; discriminate|reflexivity|]. cbn [put with_dest mdest]. rewrite I1. reflexivity.
Qed.
(** If no other thread calls destination, and with gethostbyname no other code looks up names, write sends to the
    destination the thread set last, or else the one set at the start. *)
Theorem C121_write : forall e d progs tr s t m r s', reached e d progs tr s -> only_setter progs t -> quiet e tr -> step e s (Step t) = Ok ([Done t (Write m) r], s') ->
  r = match target e d (map fst (done t tr)) with Some a => SentTo a | None => Nothing end.
Proof.
  intros e d progs tr s t m r s' H O Q1 E. pose proof (dst_inv e d progs tr s t H O Q1) as I1. apply step_small in E. inversion E; subst; try (match goal with X : reading _ |- _ => destruct X; discriminate | X : _ \/ _ |- _ => destruct X as [[X _]|[X _]]; discriminate end).
  unfold DST in I1. match goal with X : nth_error (threads s) t = _ |- _ => rewrite X in I1 end. cbn [todo at_] in I1. destruct I1 as [I1 ->]. rewrite I1. destruct (target e d (map fst (done t tr))) as [[i p]|]; reflexivity.
Qed.
Print Assumptions C121_write.

(** ** Defects *)
(** Two threads read with a timeout: both are told that there is a packet, one gets it, and the other waits without
    limit. *)
Definition clients : env := Env (fun h => match h with O => Some 7 | S O => Some 8 | _ => None end) false.
Definition client1 : packet := Packet [1; 1] (1, 10).
Definition client2 : packet := Packet [2; 2] (2, 20).
Theorem C121_timeout_refuted :
  (exists s, run clients (start None [[ReadTimeout]; [ReadTimeout]]) [Step 0; Step 1; Arrive client1; Step 0; Step 1; Step 0; Step 1; Step 0; Step 0] = Ok ([Arrived client1; Done 0 ReadTimeout (Data [1; 1])], s) /\ nth_error (threads s) 1 = Some (T [ReadTimeout] Blocked) /\ queue s = []) /\
  forall e s t x ls o s', nth_error (threads s) t = Some (T (ReadTimeout :: x) Blocked) -> queue s = [] -> run e s ls = Ok (o, s') -> (forall p, ~ In (Arrive p) ls) -> nth_error (threads s') t = Some (T (ReadTimeout :: x) Blocked).
Proof.
  split; [eexists; split; [vm_compute; reflexivity|]; split; reflexivity|].
  intros e s t x ls. revert s. induction ls as [|l ls IH]; intros s o s' N Q1 R A; cbn [run] in R; [injection R as <- <-; exact N|].
  destruct (step e s l) as [[o1 s1]| | |] eqn:E; try discriminate. cbn [bind fst snd] in R. destruct (run e s1 ls) as [[o2 s2]| | |] eqn:F; try discriminate. cbn [bind fst snd] in R. injection R as <- <-. apply step_small in E.
  assert (forall w y z, nth_error (threads s) w = Some z -> threads s1 = upd (threads s) w y -> queue s1 = queue s -> (at_ z <> Blocked \/ exists q, queue s = q /\ q <> []) -> nth_error (threads s2) t = Some (T (ReadTimeout :: x) Blocked)) as G.
  { intros w y z Nz T1 Q2 Z. eapply IH; [|rewrite Q2; exact Q1|exact F|intros p I; apply (A p); right; exact I]. rewrite T1. destruct (Nat.eq_dec w t) as [D|D]; [|rewrite nth_error_upd_neq by congruence; exact N]. subst w. rewrite N in Nz. injection Nz as <-. destruct Z as [Z|(q & Z1 & Z2)]; [contradiction Z; reflexivity|congruence]. }
  inversion E; subst; try (eapply G; [eassumption|reflexivity|reflexivity|left; discriminate]).
  - contradiction (A p). left. reflexivity.
  - assert (threads s1 = threads s /\ queue s1 = queue s) as (Ts & Qs) by (destruct H as [->|(a & ->)]; auto). eapply IH; [rewrite Ts; exact N|rewrite Qs; exact Q1|exact F|intros p I; apply (A p); right; exact I].
  - congruence.
Qed.
Print Assumptions C121_timeout_refuted.
(** Two threads that each read a request and write back the answer: the answer of one goes to the client of the other. *)
Theorem C121_answer_refuted : exists s, run clients (start None [[Read; WriteBack [11]]; [Read; WriteBack [22]]])
  [Arrive client1; Arrive client2; Step 0; Step 0; Step 0; Step 0; Step 1; Step 1; Step 1; Step 1; Step 0; Step 0; Step 1; Step 1] =
  Ok ([Arrived client1; Arrived client2; Done 0 Read (Data [1; 1]); Done 1 Read (Data [2; 2]); Done 0 (WriteBack [11]) (SentTo (2, 20)); Done 1 (WriteBack [22]) (SentTo (2, 20))], s).
Proof. eexists. vm_compute. reflexivity. Qed.
Print Assumptions C121_answer_refuted.
(** It can even go to nobody that ever sent anything: the address of one with the port of the other. *)
Theorem C121_mixed_refuted : exists s, run clients (start None [[Read; WriteBack [11]]; [Read]])
  [Arrive client1; Arrive client2; Step 0; Step 0; Step 1; Step 1; Step 0; Step 1; Step 1; Step 0; Step 0; Step 0] =
  Ok ([Arrived client1; Arrived client2; Done 1 Read (Data [2; 2]); Done 0 Read (Data [1; 1]); Done 0 (WriteBack [11]) (SentTo (2, 10))], s).
Proof. eexists. vm_compute. reflexivity. Qed.
Print Assumptions C121_mixed_refuted.
(** So can a message written while another thread changes the destination. *)
Theorem C121_destination_refuted : exists s, run (Env (lookup clients) true) (start (Some (5, 50)) [[Destination 0 70]; [Write [33]]]) [Step 0; Step 1; Step 1; Step 0] =
  Ok ([Done 1 (Write [33]) (SentTo (7, 50)); Done 0 (Destination 0 70) Unit], s).
Proof. eexists. vm_compute. reflexivity. Qed.
Print Assumptions C121_destination_refuted.
(** Without gethostbyname2_r the lock is given up before the result is used: a lookup of another thread, for another
    socket, changes it. *)
Theorem C121_lookup_refuted : exists s, run clients (start None [[Destination 0 70; Write [33]]]) [Step 0; Other 1; Step 0; Step 0; Step 0; Step 0] =
  Ok ([Looked 1; Done 0 (Destination 0 70) Unit; Done 0 (Write [33]) (SentTo (8, 70))], s).
Proof. eexists. vm_compute. reflexivity. Qed.
Print Assumptions C121_lookup_refuted.

(** ** Examples *)
Example C121_ex : exists s, run clients (start (Some (5, 50)) [[ReadTimeout; WriteBack [11]; ReadTimeout]; [Write [44]; Send (3, 30) [55]]])
  [Step 0; Step 1; Arrive client1; Step 0; Step 0; Step 1; Arrive client2; Step 0; Step 0; Step 0; Step 1; Step 0; Step 0; Expire 0] =
  Ok ([Arrived client1; Done 1 (Write [44]) (SentTo (5, 50)); Arrived client2; Done 0 ReadTimeout (Data [1; 1]); Done 1 (Send (3, 30) [55]) (SentTo (3, 30)); Done 0 (WriteBack [11]) (SentTo (1, 10)); Done 0 ReadTimeout Nothing], s) /\ queue s = [client2].
Proof. eexists. split; vm_compute; reflexivity. Qed.
Lemma run_reached e d progs ls : forall tr s o s', reached e d progs tr s -> run e s ls = Ok (o, s') -> reached e d progs (tr ++ o) s'.
Proof.
  induction ls as [|l ls IH]; intros tr s o s' H R; cbn [run] in R; [injection R as <- <-; rewrite app_nil_r; exact H|]. destruct (step e s l) as [[o1 s1]| | |] eqn:E; try discriminate. cbn [bind fst snd] in R. destruct (run e s1 ls) as [[o2 s2]| | |] eqn:F; try discriminate. cbn [bind fst snd] in R. injection R as <- <-. rewrite app_assoc. eapply IH; [|exact F]. eapply reached_step; eassumption.
Qed.
(** A state in which the theorems apply: one reader about to answer, and another thread that writes. *)
Example C121_ex_reached : exists tr s, reached clients None [[Read; WriteBack [11]]; [Destination 0 70; Write [44]]] tr s /\ only_reader [[Read; WriteBack [11]]; [Destination 0 70; Write [44]]] 0 /\ only_setter [[Read; WriteBack [11]]; [Destination 0 70; Write [44]]] 1 /\ quiet clients tr /\
  (exists s', step clients s (Step 0) = Ok ([Done 0 (WriteBack [11]) (SentTo (1, 10))], s')) /\ exists s', step clients s (Step 1) = Ok ([Done 1 (Write [44]) (SentTo (7, 70))], s').
Proof.
  set (P := [[Read; WriteBack [11]]; [Destination 0 70; Write [44]]]). destruct (run clients (start None P) [Arrive client1; Step 0; Step 0; Step 0; Step 0; Step 0; Step 1; Step 1; Step 1; Step 1]) as [[o s]| | |] eqn:R; try (exfalso; vm_compute in R; discriminate).
  exists o, s. split; [exact (run_reached clients None P _ [] _ _ _ (reached_start _ _ _) R)|]. vm_compute in R. injection R as <- <-.
  split; [intros [|[|[|u]]] p c D N I C; cbn in N; try discriminate; try congruence; injection N as <-; destruct I as [<-|[<-|[]]], C; discriminate|].
  split; [intros [|[|[|u]]] p c D N I (h & q & C); cbn in N; try discriminate; try congruence; injection N as <-; destruct I as [<-|[<-|[]]]; discriminate|].
  split; [right; intros h I; cbn in I; intuition discriminate|]. split; eexists; vm_compute; reflexivity.
Qed.
