(** C103: the calls that wait up to a number of milliseconds. *)
From Verif Require Monitor InterthreadModel.
From Verif Require Import Base BaseFacts TimevalModel TimevalProps TimedModel.
Local Open Scope Z_scope.

(** The clock is never set back in [l], starting at [c], and stays below [top]. *)
Fixpoint ticking {T} (c top : Z) (l : list (event T)) : Prop :=
  match l with
  | [] => c <= top
  | Clock c' :: l => c <= c' /\ ticking c' top l
  | _ :: l => ticking c top l
  end.
(** How often the thread is woken, and how many steps it makes. *)
Fixpoint wakes {T} (l : list (event T)) : Z := match l with [] => 0 | Wake :: l => 1 + wakes l | _ :: l => wakes l end.
Fixpoint own {T} (l : list (event T)) : Z := match l with [] => 0 | Me :: l => 1 + own l | _ :: l => own l end.
(** A time in seconds and nanoseconds, in microseconds. *)
Definition micros (t : Z * Z) : Z := 1000000 * fst t + snd t / 1000.
(** 2147482 seconds, almost 25 days. *)
Definition days : Z := 2147481000000.

Lemma tod_instant c : instant (tod c) = c. Proof. unfold instant, tod. cbn [tv_sec tv_usec]. lia. Qed.
Lemma tod_normal c : normal (tod c). Proof. unfold normal, tod. cbn [tv_usec]. lia. Qed.
Lemma future_instant c ms : 0 <= ms -> instant (future (tod c) ms) = c + 1000 * ms.
Proof. intros H. rewrite C31_future_exact by exact H. rewrite tod_instant. reflexivity. Qed.
Lemma future_usec c ms : 0 <= ms -> 0 <= tv_usec (future (tod c) ms) <= 1000000.
Proof. intros H. unfold future, tod. cbn [tv_sec tv_usec]. destruct (Z.ltb_spec 1000000 (c mod 1000000 + ms mod 1000 * 1000)); cbn [tv_usec]; lia. Qed.
Lemma rest_value d c : 0 <= tv_usec d <= 1000000 -> Z.abs (instant d - c) <= days -> exists r, remaining d (tod c) = Ok r /\ Z.abs (1000 * r - (instant d - c)) < 1000.
Proof.
  intros U N. pose proof (tod_normal c) as M. pose proof (tod_instant c) as E. unfold normal in M. unfold instant in *. unfold days in N.
  unfold remaining, elapsed, delta, sec_, usec_. rewrite (s32_diff (tv_sec d)). 2: lia. rewrite s32_diff by lia. rewrite int_ok by lia. cbn [bind]. rewrite int_ok by lia. cbn [bind].
  eexists. split; [reflexivity|]. generalize dependent (tv_usec (tod c)). generalize (tv_sec (tod c)). intros. lia.
Qed.
Lemma sleep_value c r t : 0 < r < 2 ^ 32 -> sleep_until c r = Some t -> micros t = c + 1000 * r /\ forall c', reached t c' = (c + 1000 * r <=? c').
Proof.
  intros R. unfold sleep_until. destruct (Z.leb_spec r 0); [lia|]. cbv zeta. unfold u32. rewrite Z.mod_small by lia.
  destruct (_ && _) eqn:V; [|discriminate]. intros H'. injection H' as <-. pose proof (future_instant c r ltac:(lia)) as F. unfold instant in F.
  unfold micros, reached, timespec. cbn [fst snd]. split; [lia|]. intros c'. destruct (Z.leb_spec (c + 1000 * r) c'); [apply Z.leb_le|apply Z.leb_gt]; lia.
Qed.
Lemma sleep_none c r : 2 <= r < 2 ^ 32 -> sleep_until c r = None <-> c mod 1000000 + 1000 * (r mod 1000) = 1000000.
Proof.
  intros R. unfold sleep_until. destruct (Z.leb_spec r 0); [lia|]. cbv zeta. unfold u32. rewrite Z.mod_small by lia.
  unfold timespec, future, tod. cbn [tv_sec tv_usec]. destruct (Z.ltb_spec 1000000 (c mod 1000000 + r mod 1000 * 1000)); cbn [tv_sec tv_usec snd].
  - destruct (Z.leb_spec 0 (1000 * (c mod 1000000 + r mod 1000 * 1000 - 1000000))); [|lia]. destruct (Z.ltb_spec (1000 * (c mod 1000000 + r mod 1000 * 1000 - 1000000)) 1000000000); [|lia]. cbn [andb]. split; [discriminate|lia].
  - destruct (Z.leb_spec 0 (1000 * (c mod 1000000 + r mod 1000 * 1000))); [|lia]. destruct (Z.ltb_spec (1000 * (c mod 1000000 + r mod 1000 * 1000)) 1000000000); cbn [andb]; split; try discriminate; try reflexivity; lia.
Qed.

(** * The invariant *)
Definition known {T} (ms c0 : Z) (w : world T) : Prop := 0 <= tv_usec (deadline w) <= 1000000 /\ c0 + 1000 * ms <= instant (deadline w) <= clock w + 1000 * ms.
Definition inv {T} (take : T -> option (Z * T)) (k : kind) (ms c0 : Z) (w : world T) : Prop :=
  c0 <= clock w /\
  match at_ w with
  | SClock => ms <> 0 /\ (mutex w = Mine <-> k <> KQueue)
  | SLock => mutex w <> Mine /\ (k = KQueue -> ms <> 0 -> known ms c0 w)
  | STest => mutex w = Mine /\ (ms <> 0 -> known ms c0 w)
  | SRest => mutex w = Mine /\ ms <> 0 /\ known ms c0 w /\ take (contents w) = None
  | SWait r => mutex w = Mine /\ ms <> 0 /\ known ms c0 w /\ take (contents w) = None /\
      seen w <= clock w /\ (k <> KEither -> 2 <= r) /\ r < 2 ^ 31 /\ Z.abs (1000 * r - (instant (deadline w) - seen w)) < 1000
  | SAsleep t => mutex w <> Mine /\ ms <> 0 /\ known ms c0 w /\ instant (deadline w) - 1000 < micros t /\ (forall c, reached t c = (micros t <=? c))
  | SRelock => mutex w <> Mine /\ ms <> 0 /\ known ms c0 w
  | SDone _ => mutex w <> Mine
  end.
Lemma inv_start {T} (take : T -> option (Z * T)) k ms c m s : m <> Mine -> inv take k ms c (start k ms c m s).
Proof.
  intros M. unfold inv, start. cbn [clock at_ mutex]. split; [lia|]. destruct (Z.eqb_spec ms 0) as [E|E].
  - split; [exact M|]. intros _ X. contradiction.
  - destruct k.
    + split; [exact E|]. split; [intros X; contradiction|intros X; contradiction X; reflexivity].
    + split; [exact M|]. discriminate.
    + split; [exact M|]. discriminate.
Qed.
(** The values for which everything works. *)
Definition short (ms c0 c : Z) : Prop := 0 <= ms /\ 1000 * ms <= days /\ c <= c0 + days.
Lemma known_near {T} ms c0 (w : world T) : short ms c0 (clock w) -> known ms c0 w -> Z.abs (instant (deadline w) - clock w) <= days.
Proof. unfold short, known. lia. Qed.
Lemma inv_mine {T} (take : T -> option (Z * T)) k ms c0 w w' : short ms c0 (clock w) -> inv take k ms c0 w -> mine take k ms w = Ok w' -> inv take k ms c0 w' /\ clock w' = clock w.
Proof.
  intros Sh [C I] E. unfold mine in E. assert (MS : 0 <= ms) by apply Sh. destruct (at_ w) as [| | | |r|t| |r] eqn:A.
  - destruct I as [N M]. apply Ok_inj in E. subst w'. split; [|reflexivity]. unfold inv. cbn [clock at_ mutex contents].
    assert (K : forall st, known ms c0 (W (clock w) (mutex w) (contents w) st (future (tod (clock w)) ms) (seen w))).
    { intros st. unfold known. cbn [deadline clock]. split; [apply future_usec; exact MS|]. rewrite future_instant by exact MS. lia. }
    split; [exact C|]. destruct k.
    + split; [intros X; apply M in X; contradiction X; reflexivity|]. intros _ _. apply K.
    + split; [apply M; discriminate|]. intros _. apply K.
    + split; [apply M; discriminate|]. intros _. apply K.
  - destruct I as [M K]. destruct (mutex w) eqn:Mu; [|discriminate|discriminate]. apply Ok_inj in E. subst w'. split; [|reflexivity]. unfold inv. cbn [clock at_ mutex contents goto with_mutex].
    split; [exact C|]. destruct (Z.eqb_spec ms 0) as [Z0|Z0].
    + split; [reflexivity|]. intros X. contradiction.
    + destruct k; split; try reflexivity; try exact Z0; try (split; [discriminate|reflexivity]). intros _. exact (K eq_refl Z0).
  - destruct I as [M K]. destruct (take (contents w)) as [[r s]|] eqn:Ta.
    + apply Ok_inj in E. subst w'. split; [|reflexivity]. unfold inv. cbn [clock at_ mutex finish]. split; [exact C|discriminate].
    + apply Ok_inj in E. subst w'. destruct (Z.eqb_spec ms 0) as [Z0|Z0]; (split; [|reflexivity]); unfold inv; cbn [clock at_ mutex finish goto contents]; (split; [exact C|]); [discriminate|].
      split; [exact M|]. split; [exact Z0|]. split; [exact (K Z0)|exact Ta].
  - destruct I as (M & Z0 & K & Ta). destruct (rest_value (deadline w) (clock w) (proj1 K) (known_near ms c0 w Sh K)) as (r & Er & Br). rewrite Er in E. cbn [bind] in E.
    cbv zeta in E. assert (R : r < 2 ^ 31) by (unfold known, short, days in *; lia). unfold known in K.
    assert (W' : (k <> KEither -> 2 <= r) -> inv take k ms c0 (W (clock w) (mutex w) (contents w) (SWait r) (deadline w) (clock w))).
    { intros H. unfold inv, known. cbn [clock at_ mutex finish goto contents seen deadline]. tauto || (repeat split; try assumption; try tauto; try lia). }
    apply Ok_inj in E. subst w'. destruct k.
    + destruct (Z.ltb_spec r 2); [split; [|reflexivity]; unfold inv; cbn [clock at_ mutex finish]; split; [exact C|discriminate]|]. split; [apply W'; intros _; assumption|reflexivity].
    + destruct (Z.ltb_spec r 2); [split; [|reflexivity]; unfold inv; cbn [clock at_ mutex finish]; split; [exact C|discriminate]|]. split; [apply W'; intros _; assumption|reflexivity].
    + split; [apply W'; intros X; contradiction X; reflexivity|reflexivity].
  - destruct I as (M & Z0 & K & Ta & Se & R2 & R & B). destruct (sleep_until (clock w) r) as [t|] eqn:Sl; apply Ok_inj in E; subst w'; (split; [|reflexivity]); unfold inv; cbn [clock at_ mutex contents goto with_mutex]; (split; [exact C|]).
    + assert (Rp : 0 < r) by (unfold sleep_until in Sl; destruct (Z.leb_spec r 0); [discriminate|assumption]).
      destruct (sleep_value (clock w) r t ltac:(lia) Sl) as [Mi Re]. split; [discriminate|]. split; [exact Z0|]. split; [exact K|]. cbn [deadline goto with_mutex]. split; [lia|]. intros c. rewrite Mi. apply Re.
    + split; [exact M|]. intros _. exact K.
  - destruct I as (M & Z0 & K & _). destruct (reached t (clock w)); [|discriminate]. apply Ok_inj in E. subst w'. split; [|reflexivity]. unfold inv. cbn [clock at_ mutex contents goto]. split; [exact C|]. split; [exact M|]. split; [exact Z0|exact K].
  - destruct I as (M & Z0 & K). destruct (mutex w) eqn:Mu; [|discriminate|discriminate]. apply Ok_inj in E. subst w'. split; [|reflexivity]. unfold inv. cbn [clock at_ mutex contents goto with_mutex]. split; [exact C|]. split; [reflexivity|]. intros _. exact K.
  - discriminate.
Qed.
Lemma inv_clock {T} (take : T -> option (Z * T)) k ms c0 w c : clock w <= c -> inv take k ms c0 w -> inv take k ms c0 (W c (mutex w) (contents w) (at_ w) (deadline w) (seen w)).
Proof.
  intros L [C I]. split; [cbn [clock]; lia|]. cbn [at_]. assert (Kn : known ms c0 w -> known ms c0 (W c (mutex w) (contents w) (at_ w) (deadline w) (seen w))) by (unfold known; cbn [clock deadline]; lia).
  destruct (at_ w) as [| | | |r|t| |r]; cbn [mutex contents seen deadline clock]; try tauto.
  destruct I as (M & Z0 & K & Ta & Se & R2 & R & B). assert (Se' : seen w <= c) by lia. tauto.
Qed.
Lemma inv_others {T} (take : T -> option (Z * T)) k ms c0 w m s : inv take k ms c0 w -> mutex w <> Mine -> m <> Mine -> inv take k ms c0 (W (clock w) m s (at_ w) (deadline w) (seen w)).
Proof.
  intros [C I] N M. split; [exact C|]. cbn [at_]. assert (Kn : known ms c0 w -> known ms c0 (W (clock w) m s (at_ w) (deadline w) (seen w))) by (unfold known; cbn [clock deadline]; exact (fun x => x)).
  destruct (at_ w); cbn [mutex contents seen deadline clock]; intuition congruence.
Qed.
Lemma inv_step {T} (take : T -> option (Z * T)) k ms c0 w e w' : short ms c0 (clock w) -> inv take k ms c0 w -> step take k ms w e = Ok w' ->
  (forall c, e = Clock c -> clock w <= c) -> inv take k ms c0 w' /\ clock w' = match e with Clock c => c | _ => clock w end.
Proof.
  intros Sh I E Cl. destruct e as [|c| |s| |]; cbn [step] in E.
  - exact (inv_mine take k ms c0 w w' Sh I E).
  - apply Ok_inj in E. subst w'. split; [|reflexivity]. apply inv_clock; [exact (Cl c eq_refl)|exact I].
  - destruct (mutex w) eqn:M; try discriminate. apply Ok_inj in E. subst w'. split; [|reflexivity]. apply inv_others; [exact I|rewrite M; discriminate|discriminate].
  - destruct (mutex w) eqn:M; try discriminate. apply Ok_inj in E. subst w'. split; [|reflexivity]. apply inv_others; [exact I|rewrite M; discriminate|discriminate].
  - destruct (mutex w) eqn:M; try discriminate. apply Ok_inj in E. subst w'. split; [|reflexivity]. apply inv_others; [exact I|rewrite M; discriminate|discriminate].
  - apply Ok_inj in E. subst w'. destruct (at_ w) eqn:A; try (split; [exact I|reflexivity]). split; [|reflexivity].
    destruct I as [C I]. rewrite A in I. split; [exact C|]. cbn [at_ goto mutex]. unfold known in *. cbn [goto deadline clock]. tauto.
Qed.
Lemma ticking_le {T} (l : list (event T)) : forall c top, ticking c top l -> c <= top.
Proof. induction l as [|e l IH]; intros c top H; [exact H|]. destruct e; cbn [ticking] in H; try exact (IH _ _ H). destruct H as [L H]. apply IH in H. lia. Qed.
Lemma ticking_app {T} (l1 l2 : list (event T)) : forall c top, ticking c top (l1 ++ l2) -> exists c', ticking c c' l1 /\ ticking c' top l2 /\ c <= c'.
Proof.
  induction l1 as [|e l IH]; intros c top H; cbn [app] in H.
  - exists c. split; [cbn [ticking]; lia|]. split; [exact H|lia].
  - destruct e; cbn [ticking] in H; try (destruct (IH _ _ H) as (c' & A & B & D); exists c'; split; [exact A|]; split; [exact B|exact D]).
    destruct H as [L H]. destruct (IH _ _ H) as (c' & A & B & D). exists c'. split; [split; [exact L|exact A]|]. split; [exact B|lia].
Qed.
Lemma inv_runs {T} (take : T -> option (Z * T)) k ms c0 l : forall w w' top, inv take k ms c0 w -> runs take k ms w l = Ok w' -> ticking (clock w) top l -> short ms c0 top -> inv take k ms c0 w' /\ clock w' <= top.
Proof.
  induction l as [|e l IH]; intros w w' top I E Ti Sh; cbn [runs] in E.
  - apply Ok_inj in E. subst w'. split; [exact I|exact Ti].
  - apply bind_ok in E. destruct E as (v & Ev & E). assert (L : clock w <= top) by (apply ticking_le in Ti; exact Ti).
    assert (Sw : short ms c0 (clock w)) by (unfold short in *; lia).
    assert (Cl : forall c, e = Clock c -> clock w <= c) by (intros c ->; apply Ti).
    destruct (inv_step take k ms c0 w e v Sw I Ev Cl) as [I' Cv]. apply (IH v w' top I' E); [|exact Sh].
    rewrite Cv. destruct e; try exact Ti. apply Ti.
Qed.

(** * Statements *)
Lemma reach {T} (take : T -> option (Z * T)) k ms c m s l w top : m <> Mine -> runs take k ms (start k ms c m s) l = Ok w -> ticking c top l -> short ms c top ->
  inv take k ms c w /\ short ms c (clock w).
Proof.
  intros M E Ti Sh. destruct (inv_runs take k ms c l (start k ms c m s) w top (inv_start take k ms c m s M) E Ti Sh) as [I L].
  split; [exact I|]. unfold short in *. lia.
Qed.
(** NULL is returned only if there is nothing to take at that moment, and not before two milliseconds less than the timeout have passed since the call. *)
Theorem C103_null {T} (take : T -> option (Z * T)) k ms c m s l w top w' : m <> Mine -> runs take k ms (start k ms c m s) l = Ok w -> ticking c top l -> short ms c top ->
  step take k ms w Me = Ok w' -> at_ w' = SDone None ->
  mutex w = Mine /\ take (contents w) = None /\ contents w' = contents w /\ mutex w' = Free /\ (ms <> 0 -> k <> KEither /\ c + 1000 * ms - 2000 < clock w).
Proof.
  intros M E Ti Sh St D. destruct (reach take k ms c m s l w top M E Ti Sh) as [[C I] Sw]. cbn [step] in St. unfold mine in St. destruct (at_ w) as [| | | |r|t| |r] eqn:A.
  - apply Ok_inj in St. subst w'. destruct k; discriminate.
  - destruct (mutex w); try discriminate. apply Ok_inj in St. subst w'. cbn [at_ goto] in D. destruct (ms =? 0), k; discriminate.
  - destruct I as [Mu K]. destruct (take (contents w)) as [[r s']|] eqn:Ta; apply Ok_inj in St; subst w'; [discriminate|]. destruct (Z.eqb_spec ms 0); [|discriminate]. split; [exact Mu|]. repeat split; contradiction.
  - destruct I as (Mu & Z0 & K & Ta). destruct (rest_value (deadline w) (clock w) (proj1 K) (known_near ms c w Sw K)) as (r & Er & Br). rewrite Er in St. cbn [bind] in St. cbv zeta in St. apply Ok_inj in St. subst w'.
    assert (L : r < 2 -> c + 1000 * ms - 2000 < clock w) by (unfold known in K; lia).
    destruct k; [destruct (Z.ltb_spec r 2); [|discriminate]|destruct (Z.ltb_spec r 2); [|discriminate]|discriminate]; (split; [exact Mu|]; split; [exact Ta|]; split; [reflexivity|]; split; [reflexivity|]; intros _; split; [discriminate|auto]).
  - destruct (sleep_until (clock w) r); apply Ok_inj in St; subst w'; discriminate.
  - destruct (reached t (clock w)); [|discriminate]. apply Ok_inj in St. subst w'. discriminate.
  - destruct (mutex w); try discriminate. apply Ok_inj in St. subst w'. discriminate.
  - discriminate.
Qed.
Print Assumptions C103_null.
(** Anything else returned was there, under the mutex, and is what the call takes, however late it is. *)
Theorem C103_item {T} (take : T -> option (Z * T)) k ms c m s l w top w' r : m <> Mine -> runs take k ms (start k ms c m s) l = Ok w -> ticking c top l -> short ms c top ->
  step take k ms w Me = Ok w' -> at_ w' = SDone (Some r) -> mutex w = Mine /\ take (contents w) = Some (r, contents w') /\ mutex w' = Free.
Proof.
  intros M E Ti Sh St D. destruct (reach take k ms c m s l w top M E Ti Sh) as [[C I] Sw]. cbn [step] in St. unfold mine in St. destruct (at_ w) as [| | | |r'|t| |r'] eqn:A.
  - apply Ok_inj in St. subst w'. destruct k; discriminate.
  - destruct (mutex w); try discriminate. apply Ok_inj in St. subst w'. cbn [at_ goto] in D. destruct (ms =? 0), k; discriminate.
  - destruct I as [Mu K]. destruct (take (contents w)) as [[r1 s']|] eqn:Ta; apply Ok_inj in St; subst w'; [|destruct (Z.eqb_spec ms 0); discriminate]. injection D as ->. split; [exact Mu|]. split; reflexivity.
  - apply bind_ok in St. destruct St as (r1 & _ & St). cbv zeta in St. apply Ok_inj in St. subst w'. destruct k; try destruct (r1 <? 2); discriminate.
  - destruct (sleep_until (clock w) r'); apply Ok_inj in St; subst w'; discriminate.
  - destruct (reached t (clock w)); [|discriminate]. apply Ok_inj in St. subst w'. discriminate.
  - destruct (mutex w); try discriminate. apply Ok_inj in St. subst w'. discriminate.
  - discriminate.
Qed.
Print Assumptions C103_item.
(** The deadline is exactly the timeout after the clock was read, from then on; the queues read it before they wait for the mutex, the map when it has the mutex. *)
Lemma deadline_kept {T} (take : T -> option (Z * T)) k ms w e w' : ms <> 0 -> at_ w <> SClock -> (k = KQueue \/ at_ w <> SLock) -> step take k ms w e = Ok w' ->
  deadline w' = deadline w /\ at_ w' <> SClock /\ (k = KQueue \/ at_ w' <> SLock).
Proof.
  intros Z0 N N' E. destruct e; cbn [step] in E.
  - unfold mine in E. destruct (at_ w) as [| | | |r|t| |r] eqn:A.
    + contradiction N; reflexivity.
    + destruct N' as [->|N']; [|contradiction N'; reflexivity]. destruct (mutex w); try discriminate. apply Ok_inj in E. subst w'. cbn [at_ goto deadline with_mutex]. destruct (Z.eqb_spec ms 0); [contradiction|]. split; [reflexivity|]. split; [discriminate|left; reflexivity].
    + destruct (take (contents w)) as [[r s]|]; apply Ok_inj in E; subst w'; [split; [reflexivity|]; split; [discriminate|right; discriminate]|]. destruct (ms =? 0); (split; [reflexivity|]; split; [discriminate|right; discriminate]).
    + apply bind_ok in E. destruct E as (r & _ & E). cbv zeta in E. apply Ok_inj in E. subst w'. destruct k; try destruct (r <? 2); (split; [reflexivity|]; split; [discriminate|right; discriminate]).
    + destruct (sleep_until (clock w) r); apply Ok_inj in E; subst w'; (split; [reflexivity|]; split; [discriminate|right; discriminate]).
    + destruct (reached t (clock w)); [|discriminate]. apply Ok_inj in E. subst w'. split; [reflexivity|]; split; [discriminate|right; discriminate].
    + destruct (mutex w); try discriminate. apply Ok_inj in E. subst w'. split; [reflexivity|]; split; [discriminate|right; discriminate].
    + discriminate.
  - apply Ok_inj in E. subst w'. split; [reflexivity|]. split; [exact N|exact N'].
  - destruct (mutex w); try discriminate. apply Ok_inj in E. subst w'. split; [reflexivity|]. split; [exact N|exact N'].
  - destruct (mutex w); try discriminate. apply Ok_inj in E. subst w'. split; [reflexivity|]. split; [exact N|exact N'].
  - destruct (mutex w); try discriminate. apply Ok_inj in E. subst w'. split; [reflexivity|]. split; [exact N|exact N'].
  - apply Ok_inj in E. subst w'. destruct (at_ w) eqn:A; try (split; [reflexivity|]; rewrite A; split; [exact N|exact N']). split; [reflexivity|]. split; [discriminate|right; discriminate].
Qed.
Theorem C103_deadline {T} (take : T -> option (Z * T)) k ms c m s l1 w1 l2 w : 0 < ms -> m <> Mine -> runs take k ms (start k ms c m s) l1 = Ok w1 -> ticking c (c + days) l1 -> 1000 * ms <= days -> at_ w1 = SClock ->
  runs take k ms w1 (Me :: l2) = Ok w -> instant (deadline w) = clock w1 + 1000 * ms /\ (k <> KQueue <-> mutex w1 = Mine).
Proof.
  intros Ms M E Ti Sh A R. destruct (reach take k ms c m s l1 w1 (c + days) M E Ti) as [[C I] Sw]; [unfold short; lia|]. rewrite A in I. destruct I as [_ I]. split; [|tauto]. cbn [runs step] in R. apply bind_ok in R. destruct R as (v & Ev & R).
  unfold mine in Ev. rewrite A in Ev. apply Ok_inj in Ev.
  assert (D : deadline v = future (tod (clock w1)) ms) by (subst v; reflexivity). assert (N1 : at_ v <> SClock) by (subst v; destruct k; discriminate). assert (N2 : k = KQueue \/ at_ v <> SLock) by (subst v; destruct k; [left; reflexivity|right; discriminate|right; discriminate]).
  assert (Dw : deadline w = deadline v).
  { clear Ev D. revert v N1 N2 R. induction l2 as [|e l2 IH]; intros v N1 N2 R; cbn [runs] in R; [apply Ok_inj in R; subst w; reflexivity|]. apply bind_ok in R. destruct R as (u & Eu & R).
    destruct (deadline_kept take k ms v e u ltac:(lia) N1 N2 Eu) as (Du & Nu & Nu'). rewrite <- Du. exact (IH u Nu Nu' R). }
  rewrite Dw, D. apply future_instant. lia.
Qed.
Print Assumptions C103_deadline.
(** When it falls asleep the mutex is free, and it sleeps up to the deadline to less than a millisecond, later only by what passed between the two looks at the clock. *)
Theorem C103_asleep {T} (take : T -> option (Z * T)) k ms c m s l w top w' t : m <> Mine -> runs take k ms (start k ms c m s) l = Ok w -> ticking c top l -> short ms c top ->
  step take k ms w Me = Ok w' -> at_ w' = SAsleep t -> mutex w = Mine /\ mutex w' = Free /\ take (contents w) = None /\ seen w <= clock w /\
  instant (deadline w) - 1000 < micros t < instant (deadline w) + 1000 + (clock w - seen w).
Proof.
  intros M E Ti Sh St D. destruct (reach take k ms c m s l w top M E Ti Sh) as [[C I] Sw]. cbn [step] in St. unfold mine in St. destruct (at_ w) as [| | | |r|t'| |r] eqn:A.
  - apply Ok_inj in St. subst w'. destruct k; discriminate.
  - destruct (mutex w); try discriminate. apply Ok_inj in St. subst w'. cbn [at_ goto] in D. destruct (ms =? 0), k; discriminate.
  - destruct (take (contents w)) as [[r1 s']|] eqn:Ta; apply Ok_inj in St; subst w'; [discriminate|]. destruct (Z.eqb_spec ms 0); discriminate.
  - apply bind_ok in St. destruct St as (r1 & _ & St). cbv zeta in St. apply Ok_inj in St. subst w'. destruct k; try destruct (r1 <? 2); discriminate.
  - destruct I as (Mu & Z0 & K & Ta & Se & R2 & R & B). destruct (sleep_until (clock w) r) as [t'|] eqn:Sl; apply Ok_inj in St; subst w'; [|discriminate]. cbn [at_ goto] in D. injection D as ->.
    assert (Rp : 0 < r) by (unfold sleep_until in Sl; destruct (Z.leb_spec r 0); [discriminate|assumption]).
    destruct (sleep_value (clock w) r t ltac:(lia) Sl) as [Mi _]. split; [exact Mu|]. split; [reflexivity|]. split; [exact Ta|]. split; [exact Se|]. lia.
  - destruct (reached t' (clock w)); [|discriminate]. apply Ok_inj in St. subst w'. discriminate.
  - destruct (mutex w); try discriminate. apply Ok_inj in St. subst w'. discriminate.
  - discriminate.
Qed.
Print Assumptions C103_asleep.
(** Once the clock has reached that time and the mutex is free, the call is over after at most four steps of its own, with what is there or with NULL. *)
Theorem C103_over {T} (take : T -> option (Z * T)) k ms c m s l w top t : k <> KEither -> m <> Mine -> runs take k ms (start k ms c m s) l = Ok w -> ticking c top l -> short ms c top ->
  at_ w = SAsleep t -> micros t <= clock w -> mutex w = Free ->
  match take (contents w) with
  | Some (r, s') => exists w', runs take k ms w [Me; Me; Me] = Ok w' /\ at_ w' = SDone (Some r) /\ contents w' = s'
  | None => exists w', runs take k ms w [Me; Me; Me; Me] = Ok w' /\ at_ w' = SDone None /\ contents w' = contents w
  end.
Proof.
  intros Kk M E Ti Sh A L F. destruct (reach take k ms c m s l w top M E Ti Sh) as [[C I] Sw]. rewrite A in I. destruct I as (_ & Z0 & K & Lo & Re).
  assert (S1 : mine take k ms w = Ok (goto w SRelock)) by (unfold mine; rewrite A, Re; replace (micros t <=? clock w) with true by lia; reflexivity).
  set (w1 := goto w SRelock) in *. set (w2 := goto (with_mutex w1 Mine) STest).
  assert (S2 : mine take k ms w1 = Ok w2) by (unfold mine; cbn [w1 at_ goto mutex]; rewrite F; reflexivity).
  assert (S3 : mine take k ms w2 = match take (contents w) with Some (r, s) => Ok (finish w2 s (Some r)) | None => Ok (goto w2 SRest) end).
  { unfold mine. cbn [w2 w1 at_ goto with_mutex contents]. destruct (take (contents w)) as [[r s']|]; [reflexivity|]. destruct (Z.eqb_spec ms 0); [contradiction|reflexivity]. }
  destruct (take (contents w)) as [[r s']|].
  - exists (finish w2 s' (Some r)). split; [|split; reflexivity]. cbn [runs step]. rewrite S1. cbn [bind]. rewrite S2. cbn [bind]. rewrite S3. reflexivity.
  - destruct (rest_value (deadline w) (clock w) (proj1 K) (known_near ms c w Sw K)) as (r & Er & Br).
    assert (S4 : exists w', mine take k ms (goto w2 SRest) = Ok w' /\ at_ w' = SDone None /\ contents w' = contents w).
    { unfold mine. cbn [w2 w1 at_ goto with_mutex contents mutex deadline clock]. rewrite Er. cbn [bind]. replace (r <? 2) with true by lia. destruct k; [| |contradiction Kk; reflexivity]; (eexists; split; [reflexivity|]; split; reflexivity). }
    destruct S4 as (w' & S4 & D). exists w'. split; [|exact D]. cbn [runs step]. rewrite S1. cbn [bind]. rewrite S2. cbn [bind]. rewrite S3. cbn [bind]. rewrite S4. reflexivity.
Qed.
Print Assumptions C103_over.
(** Woken when there is something to take and the mutex is free, it returns that after two steps, whatever the clock says. *)
Theorem C103_woken {T} (take : T -> option (Z * T)) k ms w t r s' : at_ w = SAsleep t -> mutex w = Free -> take (contents w) = Some (r, s') ->
  exists w', runs take k ms w [Wake; Me; Me] = Ok w' /\ at_ w' = SDone (Some r) /\ contents w' = s' /\ mutex w' = Free.
Proof.
  intros A F Ta. cbn [runs step]. rewrite A. cbn [bind]. unfold mine at 1. cbn [at_ goto mutex]. rewrite F. cbn [bind]. unfold mine. cbn [at_ goto mutex contents with_mutex]. rewrite Ta. cbn [bind].
  eexists. split; [reflexivity|]. repeat split; reflexivity.
Qed.
Print Assumptions C103_woken.
(** It is never undefined, it can always go on while it has the mutex, and otherwise it waits only for the mutex that another thread has or for the time it sleeps to. *)
Theorem C103_goes_on {T} (take : T -> option (Z * T)) k ms c m s l w top : m <> Mine -> runs take k ms (start k ms c m s) l = Ok w -> ticking c top l -> short ms c top ->
  (exists r, at_ w = SDone r) \/ (exists w', step take k ms w Me = Ok w') \/
  (step take k ms w Me = Diverge /\ mutex w <> Mine /\ ((mutex w = Others /\ (at_ w = SLock \/ at_ w = SRelock)) \/ exists t, at_ w = SAsleep t /\ clock w < micros t)).
Proof.
  intros M E Ti Sh. destruct (reach take k ms c m s l w top M E Ti Sh) as [[C I] Sw]. cbn [step]. unfold mine. destruct (at_ w) as [| | | |r|t| |r] eqn:A.
  - right. left. eexists. reflexivity.
  - right. destruct I as [Mu _]. destruct (mutex w) eqn:F; [left; eexists; reflexivity|contradiction Mu; reflexivity|]. right. split; [reflexivity|]. split; [discriminate|]. left. split; [reflexivity|left; reflexivity].
  - right. left. destruct (take (contents w)) as [[r s']|]; eexists; reflexivity.
  - right. left. destruct I as (Mu & Z0 & K & Ta). destruct (rest_value (deadline w) (clock w) (proj1 K) (known_near ms c w Sw K)) as (r & Er & _). rewrite Er. eexists. reflexivity.
  - right. left. destruct (sleep_until (clock w) r); eexists; reflexivity.
  - right. destruct I as (Mu & _ & _ & _ & Re). rewrite Re. destruct (Z.leb_spec (micros t) (clock w)); [left; eexists; reflexivity|]. right. split; [reflexivity|]. split; [exact Mu|]. right. exists t. split; [reflexivity|assumption].
  - right. destruct I as [Mu _]. destruct (mutex w) eqn:F; [left; eexists; reflexivity|contradiction Mu; reflexivity|]. right. split; [reflexivity|]. split; [discriminate|]. left. split; [reflexivity|right; reflexivity].
  - left. exists r. reflexivity.
Qed.
Print Assumptions C103_goes_on.

(** Looks at the clock at which Signal::wait has the system refuse the time (C31), so that the thread does not sleep. *)
Fixpoint spins {T} (take : T -> option (Z * T)) (k : kind) (ms : Z) (w : world T) (l : list (event T)) : Z :=
  match l with
  | [] => 0
  | e :: l =>
      (match e, at_ w with Me, SWait r => if clock w mod 1000000 + 1000 * (r mod 1000) =? 1000000 then 1 else 0 | _, _ => 0 end) +
      (match step take k ms w e with Ok w' => spins take k ms w' l | _ => 0 end)
  end.
Definition budget {T} (k : kind) (w : world T) : Z :=
  let late := instant (deadline w) - 1000 <? clock w in
  match at_ w with
  | SClock => if match k with KQueue => true | _ => false end then 9 else 8
  | SLock => if match k with KQueue => true | _ => false end then 8 else 9
  | STest => if late then 2 else 7
  | SRest => if late then 1 else 6
  | SWait _ => 5
  | SAsleep _ => 4
  | SRelock => if late then 3 else 8
  | SDone _ => 0
  end.
Lemma budget_le {T} k (w : world T) : 0 <= budget k w <= 9.
Proof. unfold budget. destruct (instant (deadline w) - 1000 <? clock w), (at_ w), k; lia. Qed.
Lemma budget_step {T} (take : T -> option (Z * T)) k ms c0 w e w' : k <> KEither -> ms <> 0 -> short ms c0 (clock w) -> inv take k ms c0 w -> step take k ms w e = Ok w' -> (forall c, e = Clock c -> clock w <= c) ->
  own [e] + budget k w' <= budget k w + 4 * (wakes [e] + spins take k ms w [e]).
Proof.
  intros Kk Z0 Sh I E Cl. cbn [spins]. rewrite E. destruct e as [|c| |s| |]; cbn [own wakes].
  - cbn [step] in E. destruct I as [C I]. unfold mine in E. unfold budget at 2. destruct (at_ w) as [| | | |r|t| |r] eqn:A.
    + apply Ok_inj in E. subst w'. unfold budget. cbn [at_]. destruct k; [| |contradiction Kk; reflexivity]; [lia|]. destruct (_ <? _); lia.
    + destruct (mutex w); try discriminate. apply Ok_inj in E. subst w'. unfold budget. cbn [at_ goto]. destruct (Z.eqb_spec ms 0); [contradiction|]. destruct k; [| |contradiction Kk; reflexivity]; [|lia]. destruct (_ <? _); lia.
    + destruct (take (contents w)) as [[r s]|]; apply Ok_inj in E; subst w'; [unfold budget; cbn [at_ finish]; destruct (_ <? _); lia|].
      destruct (Z.eqb_spec ms 0); [contradiction|]. unfold budget. cbn [at_ goto deadline clock]. destruct (_ <? _); lia.
    + destruct I as (Mu & _ & K & Ta). destruct (rest_value (deadline w) (clock w) (proj1 K) (known_near ms c0 w Sh K)) as (r & Er & Br). rewrite Er in E. cbn [bind] in E. cbv zeta in E. apply Ok_inj in E. subst w'.
      destruct k; [| |contradiction Kk; reflexivity]; (destruct (Z.ltb_spec r 2); unfold budget; cbn [at_ finish]; [destruct (_ <? _); lia|]; destruct (Z.ltb_spec (instant (deadline w) - 1000) (clock w)); lia).
    + destruct I as (Mu & _ & K & Ta & Se & R2 & R & B). pose proof (sleep_none (clock w) r) as Sn. specialize (R2 Kk). specialize (Sn ltac:(lia)).
      destruct (sleep_until (clock w) r) as [t|] eqn:Sl; apply Ok_inj in E; subst w'; unfold budget; cbn [at_ goto].
      * destruct (_ =? _); lia.
      * rewrite (proj2 (Z.eqb_eq _ _)) by (apply Sn; reflexivity). destruct (_ <? _); lia.
    + destruct I as (Mu & _ & K & Lo & Re). rewrite Re in E. destruct (Z.leb_spec (micros t) (clock w)); [|discriminate]. apply Ok_inj in E. subst w'. unfold budget. cbn [at_ goto deadline clock]. replace (_ <? _) with true by lia. lia.
    + destruct (mutex w); try discriminate. apply Ok_inj in E. subst w'. unfold budget. cbn [at_ goto deadline clock with_mutex]. destruct (_ <? _); lia.
    + discriminate.
  - cbn [step] in E. apply Ok_inj in E. subst w'. specialize (Cl c eq_refl). unfold budget. cbn [at_ deadline clock]. destruct (at_ w), (Z.ltb_spec (instant (deadline w) - 1000) c), (Z.ltb_spec (instant (deadline w) - 1000) (clock w)); destruct k; lia.
  - cbn [step] in E. destruct (mutex w); try discriminate. apply Ok_inj in E. subst w'. unfold budget. cbn [at_ deadline clock with_mutex]. lia.
  - cbn [step] in E. destruct (mutex w); try discriminate. apply Ok_inj in E. subst w'. unfold budget. cbn [at_ deadline clock with_mutex]. lia.
  - cbn [step] in E. destruct (mutex w); try discriminate. apply Ok_inj in E. subst w'. unfold budget. cbn [at_ deadline clock with_mutex]. lia.
  - cbn [step] in E. apply Ok_inj in E. subst w'. unfold budget. destruct (at_ w) eqn:A; try (rewrite A; lia). cbn [at_ goto]. destruct (_ <? _); lia.
Qed.
Lemma own_cons {T} (e : event T) l : own (e :: l) = own [e] + own l.
Proof. destruct e; cbn [own]; lia. Qed.
Lemma wakes_cons {T} (e : event T) l : wakes (e :: l) = wakes [e] + wakes l.
Proof. destruct e; cbn [wakes]; lia. Qed.
(** The call ends after few steps: at most nine, and four more each time the thread is woken or the time is refused; so it makes no busy loop while the clock goes on. *)
Theorem C103_steps {T} (take : T -> option (Z * T)) k ms c m s l w top : k <> KEither -> 0 < ms -> m <> Mine -> runs take k ms (start k ms c m s) l = Ok w -> ticking c top l -> short ms c top ->
  own l <= 9 + 4 * (wakes l + spins take k ms (start k ms c m s) l).
Proof.
  intros Kk Ms M E Ti Sh.
  assert (G : forall l v, inv take k ms c v -> ticking (clock v) top l -> runs take k ms v l = Ok w -> own l + budget k w <= budget k v + 4 * (wakes l + spins take k ms v l)).
  { clear E Ti l. induction l as [|e l IH]; intros v I Ti E; cbn [runs] in E.
    - apply Ok_inj in E. subst v. cbn [own wakes spins]. lia.
    - apply bind_ok in E. destruct E as (u & Eu & E). assert (L : clock v <= top) by (apply ticking_le in Ti; exact Ti). assert (Sv : short ms c (clock v)) by (unfold short in *; lia).
      assert (Cl : forall c, e = Clock c -> clock v <= c) by (intros c' ->; apply Ti).
      destruct (inv_step take k ms c v e u Sv I Eu Cl) as [I' Cu]. pose proof (budget_step take k ms c v e u Kk ltac:(lia) Sv I Eu Cl) as B.
      assert (Ti' : ticking (clock u) top l) by (rewrite Cu; destruct e; try exact Ti; apply Ti). specialize (IH u I' Ti' E).
      rewrite own_cons, wakes_cons. cbn [spins] in B |- *. rewrite Eu in B |- *. lia. }
  pose proof (G l (start k ms c m s) (inv_start take k ms c m s M) Ti E) as B. pose proof (budget_le k w). pose proof (budget_le k (start k ms c m s)). lia.
Qed.
Print Assumptions C103_steps.
(** With timeout 0 or 1 it never sleeps. *)
Theorem C103_short {T} (take : T -> option (Z * T)) k ms c m s l w top : k <> KEither -> 0 <= ms <= 1 -> m <> Mine -> runs take k ms (start k ms c m s) l = Ok w -> ticking c top l -> short ms c top ->
  forall t, at_ w <> SAsleep t.
Proof.
  intros Kk Ms M E Ti Sh.
  enough (G : forall l v, inv take k ms c v -> ticking (clock v) top l -> runs take k ms v l = Ok w -> (forall r, at_ v <> SWait r) -> (forall t, at_ v <> SAsleep t) -> forall t, at_ w <> SAsleep t).
  { apply (G l (start k ms c m s) (inv_start take k ms c m s M) Ti E); unfold start; cbn [at_]; intros; destruct (ms =? 0), k; discriminate. }
  clear E Ti l. induction l as [|e l IH]; intros v I Ti E N1 N2; cbn [runs] in E.
  - apply Ok_inj in E. subst w. exact N2.
  - apply bind_ok in E. destruct E as (u & Eu & E). assert (L : clock v <= top) by (apply ticking_le in Ti; exact Ti). assert (Sv : short ms c (clock v)) by (unfold short in *; lia).
    assert (Cl : forall c, e = Clock c -> clock v <= c) by (intros c' ->; apply Ti).
    destruct (inv_step take k ms c v e u Sv I Eu Cl) as [I' Cu].
    assert (Ti' : ticking (clock u) top l) by (rewrite Cu; destruct e; try exact Ti; apply Ti). apply (IH u I' Ti' E).
    + intros r Au. pose proof I' as [_ J]. rewrite Au in J. destruct J as (_ & Z0 & K & _ & _ & R2 & _ & B). specialize (R2 Kk).
      destruct e; cbn [step] in Eu.
      * unfold mine in Eu. destruct (at_ v) as [| | | |r'|t'| |r'] eqn:A.
        -- apply Ok_inj in Eu. subst u. destruct k; discriminate.
        -- destruct (mutex v); try discriminate. apply Ok_inj in Eu. subst u. cbn [at_ goto] in Au. destruct (ms =? 0), k; discriminate.
        -- destruct (take (contents v)) as [[r1 s']|]; apply Ok_inj in Eu; subst u; [discriminate|]. destruct (ms =? 0); discriminate.
        -- apply bind_ok in Eu. destruct Eu as (r1 & _ & Eu). cbv zeta in Eu. apply Ok_inj in Eu. assert (X : seen u = clock v) by (subst u; destruct k; try destruct (r1 <? 2); reflexivity). unfold known in K. lia.
        -- destruct (N1 r' eq_refl).
        -- destruct (N2 t' eq_refl).
        -- destruct (mutex v); try discriminate. apply Ok_inj in Eu. subst u. discriminate.
        -- discriminate.
      * apply Ok_inj in Eu. subst u. destruct (N1 r Au).
      * destruct (mutex v); try discriminate. apply Ok_inj in Eu. subst u. destruct (N1 r Au).
      * destruct (mutex v); try discriminate. apply Ok_inj in Eu. subst u. destruct (N1 r Au).
      * destruct (mutex v); try discriminate. apply Ok_inj in Eu. subst u. destruct (N1 r Au).
      * apply Ok_inj in Eu. subst u. destruct (at_ v) eqn:A; try (rewrite A in Au; discriminate); [|discriminate]. destruct (N1 r0 eq_refl).
    + intros t Au. destruct e; cbn [step] in Eu.
      * unfold mine in Eu. destruct (at_ v) as [| | | |r'|t'| |r'] eqn:A.
        -- apply Ok_inj in Eu. subst u. destruct k; discriminate.
        -- destruct (mutex v); try discriminate. apply Ok_inj in Eu. subst u. cbn [at_ goto] in Au. destruct (ms =? 0), k; discriminate.
        -- destruct (take (contents v)) as [[r1 s']|]; apply Ok_inj in Eu; subst u; [discriminate|]. destruct (ms =? 0); discriminate.
        -- apply bind_ok in Eu. destruct Eu as (r1 & _ & Eu). cbv zeta in Eu. apply Ok_inj in Eu. subst u. destruct k; try destruct (r1 <? 2); discriminate.
        -- destruct (N1 r' eq_refl).
        -- destruct (N2 t' eq_refl).
        -- destruct (mutex v); try discriminate. apply Ok_inj in Eu. subst u. discriminate.
        -- discriminate.
      * apply Ok_inj in Eu. subst u. destruct (N2 t Au).
      * destruct (mutex v); try discriminate. apply Ok_inj in Eu. subst u. destruct (N2 t Au).
      * destruct (mutex v); try discriminate. apply Ok_inj in Eu. subst u. destruct (N2 t Au).
      * destruct (mutex v); try discriminate. apply Ok_inj in Eu. subst u. destruct (N2 t Au).
      * apply Ok_inj in Eu. subst u. destruct (at_ v) eqn:A; try (rewrite A in Au; discriminate). discriminate.
Qed.
Print Assumptions C103_short.
(** Defect: from 2147484000 milliseconds (24.8 days) on a call that finds nothing is undefined. *)
Theorem C103_long_refuted {T} (take : T -> option (Z * T)) k ms c s : take s = None -> 2147484000 <= ms < 2 ^ 32 -> runs take k ms (start k ms c Free s) [Me; Me; Me; Me] = UB.
Proof.
  intros Ta Ms. assert (Z0 : (ms =? 0) = false) by lia.
  assert (R : remaining (future (tod c) ms) (tod c) = UB).
  { assert (B : 2147484 <= tv_sec (future (tod c) ms) - tv_sec (tod c) < 2 ^ 31) by (unfold future; destruct (_ <? _); cbn [tv_sec]; lia).
    unfold remaining, elapsed, delta, sec_. rewrite (s32_diff (tv_sec (future (tod c) ms))) by lia. unfold int_ at 1, fits32. destruct (Z.leb_spec (- 2 ^ 31) (1000 * (tv_sec (tod c) - tv_sec (future (tod c) ms)))); [lia|]. reflexivity. }
  unfold start. rewrite Z0. destruct k; cbn [runs step]; unfold mine; cbn [at_ bind mutex contents goto with_mutex clock deadline]; rewrite Z0; cbn [at_ bind mutex contents goto with_mutex clock deadline]; rewrite Ta; cbn [at_ bind mutex contents goto with_mutex clock deadline]; rewrite R; reflexivity.
Qed.
Print Assumptions C103_long_refuted.
(** Defect: once a second, while the clock stands, a call with a timeout that is not a whole number of seconds does not sleep but tests again and again, with the mutex locked. *)
Theorem C103_spin_refuted {T} (take : T -> option (Z * T)) ms s : take s = None -> 2 <= ms -> 1000 * ms <= days -> ms mod 1000 <> 0 ->
  exists c, forall n, exists w, runs take KQueue ms (start KQueue ms c Free s) (Me :: Me :: concat (repeat [Me; Me; Me] n)) = Ok w /\ at_ w = STest /\ mutex w = Mine /\ clock w = c.
Proof.
  intros Ta Ms Md Nm. assert (Z0 : (ms =? 0) = false) by lia. set (c := 1000000 - 1000 * (ms mod 1000)). exists c. intros n.
  set (d := future (tod c) ms).
  assert (D : d = TV (ms / 1000) 1000000).
  { unfold d, future, tod, c. cbn [tv_sec tv_usec]. replace ((1000000 - 1000 * (ms mod 1000)) / 1000000) with 0 by lia. replace ((1000000 - 1000 * (ms mod 1000)) mod 1000000) with (1000000 - 1000 * (ms mod 1000)) by lia.
    replace (1000000 <? 1000000 - 1000 * (ms mod 1000) + ms mod 1000 * 1000) with false by lia. f_equal; lia. }
  assert (R : remaining d (tod c) = Ok ms).
  { rewrite D. unfold remaining, elapsed, delta, sec_, usec_, tod. cbn [tv_sec tv_usec]. replace (c / 1000000) with 0 by lia. replace (c mod 1000000) with c by lia. unfold days in Md.
    rewrite (s32_diff (ms / 1000)) by lia. rewrite (s32_diff 1000000) by lia. rewrite int_ok by lia. cbn [bind]. rewrite int_ok by lia. cbn [bind]. f_equal. lia. }
  assert (Sl : sleep_until c ms = None) by (apply sleep_none; unfold days in Md; lia).
  assert (L : forall j sn, exists w, runs take KQueue ms (W c Mine s STest d sn) (concat (repeat [Me; Me; Me] j)) = Ok w /\ at_ w = STest /\ mutex w = Mine /\ clock w = c).
  { clear n. induction j as [|j IH]; intros sn; cbn [repeat concat app].
    - eexists. split; [reflexivity|]. repeat split; reflexivity.
    - cbn [runs step]. unfold mine at 1. cbn [at_ contents]. rewrite Ta, Z0. cbn [bind]. unfold mine at 1. cbn [at_ contents goto deadline clock mutex]. rewrite R. cbn [bind]. replace (ms <? 2) with false by lia. cbn [bind].
      unfold mine at 1. cbn [at_ contents goto deadline clock mutex]. rewrite Sl. cbn [bind goto clock mutex contents deadline seen]. apply IH. }
  unfold start. rewrite Z0. cbn [runs step]. unfold mine at 1. cbn [at_ bind mutex contents goto with_mutex clock deadline]. unfold mine at 1. cbn [at_ bind mutex contents goto with_mutex clock deadline]. rewrite Z0. cbn [bind].
  apply L.
Qed.
Print Assumptions C103_spin_refuted.
(** Defect: when the clock is set back the call sleeps longer by that: two seconds after the beginning of a read(1000) it still does. *)
Theorem C103_set_back_refuted : exists w, runs take_first KQueue 1000 (start KQueue 1000 1700000000000000 Free []) [Me; Me; Me; Me; Me; Clock 1699996400000000; Clock 1699996402000000] = Ok w /\
  step take_first KQueue 1000 w Me = Diverge /\ mutex w = Free.
Proof. eexists. split; [vm_compute; reflexivity|]. split; vm_compute; reflexivity. Qed.
Print Assumptions C103_set_back_refuted.
(** Defect: iqWaitForEither that finds both queues empty a millisecond after its deadline keeps the mutex for ever and never returns, whatever happens. *)
Theorem C103_either_refuted {T} (take : T -> option (Z * T)) ms c m s l w top : 0 < ms -> m <> Mine -> runs take KEither ms (start KEither ms c m s) l = Ok w -> ticking c top l -> short ms c top ->
  at_ w = STest -> take (contents w) = None -> instant (deadline w) + 1000 <= clock w ->
  forall l' w' top', ticking (clock w) top' l' -> short ms c top' -> runs take KEither ms w l' = Ok w' -> mutex w' = Mine /\ contents w' = contents w /\ match at_ w' with STest | SRest => True | SWait r => r <= 0 | _ => False end.
Proof.
  intros Ms M E Ti Sh A Ta L. destruct (reach take KEither ms c m s l w top M E Ti Sh) as [I Sw]. assert (Mu : mutex w = Mine) by (destruct I as [_ I]; rewrite A in I; apply I).
  intros l' w' top' Ti' Sh' E'.
  assert (G : forall l' v, inv take KEither ms c v -> ticking (clock v) top' l' -> instant (deadline v) + 1000 <= clock v -> contents v = contents w -> mutex v = Mine -> match at_ v with STest | SRest => True | SWait r => r <= 0 | _ => False end ->
    runs take KEither ms v l' = Ok w' -> mutex w' = Mine /\ contents w' = contents w /\ match at_ w' with STest | SRest => True | SWait r => r <= 0 | _ => False end).
  { clear E' Ti' l'. induction l' as [|e l' IH]; intros v Iv Tv Lv Cv Mv Av E'; cbn [runs] in E'.
    - apply Ok_inj in E'. subst w'. auto.
    - apply bind_ok in E'. destruct E' as (u & Eu & E'). assert (Lt : clock v <= top') by (apply ticking_le in Tv; exact Tv). assert (Sv : short ms c (clock v)) by (unfold short in *; lia).
      assert (Cl : forall c, e = Clock c -> clock v <= c) by (intros c' ->; apply Tv).
      destruct (inv_step take KEither ms c v e u Sv Iv Eu Cl) as [Iu Cu].
      assert (Tu : ticking (clock u) top' l') by (rewrite Cu; destruct e; try exact Tv; apply Tv).
      destruct e; cbn [step] in Eu; [|apply Ok_inj in Eu; subst u; apply (IH _ Iu Tu); [cbn [deadline clock]; specialize (Cl c0 eq_refl); lia|exact Cv|exact Mv|exact Av|exact E']|rewrite Mv in Eu; discriminate|rewrite Mv in Eu; discriminate|rewrite Mv in Eu; discriminate|].
      + destruct Iv as [Ct Iv]. unfold mine in Eu. destruct (at_ v) as [| | | |r|t| |r]; try contradiction.
        * rewrite Cv, Ta in Eu. apply Ok_inj in Eu. replace (ms =? 0) with false in Eu by lia. subst u. apply (IH _ Iu Tu); [exact Lv|exact Cv|exact Mv|exact Logic.I|exact E'].
        * destruct Iv as (_ & _ & K & _). destruct (rest_value (deadline v) (clock v) (proj1 K) (known_near ms c v Sv K)) as (r & Er & Br). rewrite Er in Eu. cbn [bind] in Eu. apply Ok_inj in Eu. subst u. apply (IH _ Iu Tu); [exact Lv|exact Cv|exact Mv|cbn [at_]; lia|exact E'].
        * unfold sleep_until in Eu. replace (r <=? 0) with true in Eu by lia. apply Ok_inj in Eu. subst u. apply (IH _ Iu Tu); [exact Lv|exact Cv|exact Mv|exact Logic.I|exact E'].
      + apply Ok_inj in Eu. subst u. destruct (at_ v) as [| | | |r|t| |r] eqn:Av'; try contradiction; (apply (IH v Iu Tu Lv Cv Mv); [rewrite Av'; exact Av|exact E']). }
  apply (G l' w I Ti' L eq_refl Mu); [rewrite A; exact Logic.I|exact E'].
Qed.
Print Assumptions C103_either_refuted.

(** * The monitors of C20 to C26
    What those take as the answer of the clock is computed here; one turn of the loop does what the body of the monitor does with that answer. *)
Definition answer (r c : Z) : Monitor.clk := if r <? 2 then Monitor.Late else match sleep_until c r with Some _ => Monitor.Early | None => Monitor.Glitch end.
(** From the test on, left alone, the thread returns [Some r] or [None], falls asleep or is back at the test. *)
Definition turn {T} (take : T -> option (Z * T)) (k : kind) (ms : Z) (w : world T) (s : T) (end_ : stage -> Prop) (m : holder) : Prop :=
  exists n w', (1 <= n <= 3)%nat /\ runs take k ms w (repeat Me n) = Ok w' /\ contents w' = s /\ mutex w' = m /\ end_ (at_ w').
Lemma turn_some {T} (take : T -> option (Z * T)) k ms c s d sn r s' (e : stage -> Prop) : take s = Some (r, s') -> e (SDone (Some r)) -> turn take k ms (W c Mine s STest d sn) s' e Free.
Proof. intros Ta H. exists 1%nat. eexists. split; [lia|]. cbn [repeat runs step]. unfold mine. cbn [at_ contents]. rewrite Ta. cbn [bind]. split; [reflexivity|]. split; [reflexivity|]. split; [reflexivity|exact H]. Qed.
Lemma turn_none {T} (take : T -> option (Z * T)) k ms c s d sn r : k <> KEither -> 0 < ms -> take s = None -> remaining d (tod c) = Ok r ->
  match answer r c with
  | Monitor.Late => turn take k ms (W c Mine s STest d sn) s (fun a => a = SDone None) Free
  | Monitor.Early => turn take k ms (W c Mine s STest d sn) s (fun a => exists t, a = SAsleep t) Free
  | Monitor.Glitch => turn take k ms (W c Mine s STest d sn) s (fun a => a = STest) Mine
  end.
Proof.
  intros Kk Ms Ta R. unfold answer. assert (Z0 : (ms =? 0) = false) by lia.
  assert (S1 : mine take k ms (W c Mine s STest d sn) = Ok (W c Mine s SRest d sn)) by (unfold mine; cbn [at_ contents]; rewrite Ta, Z0; reflexivity).
  destruct (r <? 2) eqn:L.
  - exists 2%nat. assert (S2 : exists w', mine take k ms (W c Mine s SRest d sn) = Ok w' /\ contents w' = s /\ mutex w' = Free /\ at_ w' = SDone None).
    { unfold mine. cbn [at_ contents deadline clock mutex]. rewrite R. cbn [bind]. rewrite L. destruct k; [| |contradiction Kk; reflexivity]; (eexists; split; [reflexivity|]; repeat split; reflexivity). }
    destruct S2 as (w' & S2 & P). exists w'. split; [lia|]. split; [|exact P]. cbn [repeat runs step]. rewrite S1. cbn [bind]. rewrite S2. reflexivity.
  - assert (S2 : mine take k ms (W c Mine s SRest d sn) = Ok (W c Mine s (SWait r) d c)).
    { unfold mine. cbn [at_ contents deadline clock mutex]. rewrite R. cbn [bind]. rewrite L. destruct k; reflexivity. }
    destruct (sleep_until c r) as [t|] eqn:Sl; exists 3%nat; eexists; (split; [lia|]); cbn [repeat runs step]; rewrite S1; cbn [bind]; rewrite S2; cbn [bind]; unfold mine; cbn [at_ clock]; rewrite Sl; (split; [reflexivity|]); (split; [reflexivity|]); (split; [reflexivity|]); [exists t; reflexivity|reflexivity].
Qed.
(** The thread returns pointer [p] of a queue, where NULL is 0. *)
Definition returns (p : Z) (a : stage) : Prop := match a with SDone (Some v) => v = p | SDone None => p = 0 | _ => False end.
Theorem C103_as_queue ms c q d sn r : 0 < ms -> remaining d (tod c) = Ok r ->
  let w := W c Mine q STest d sn in
  match InterthreadModel.q_body q InterthreadModel.QReadT (answer r c) with
  | Monitor.ODone q' (InterthreadModel.RPtr p) [] [] => turn take_first KQueue ms w q' (returns p) Free
  | Monitor.OWait q' 0%nat => turn take_first KQueue ms w q' (fun a => exists t, a = SAsleep t) Free
  | Monitor.OSpin q' => turn take_first KQueue ms w q' (fun a => a = STest) Mine
  | _ => False
  end.
Proof.
  intros Ms R. cbv zeta. destruct q as [|x q].
  - pose proof (turn_none take_first KQueue ms c [] d sn r ltac:(discriminate) Ms eq_refl R) as H. cbn [InterthreadModel.q_body]. destruct (answer r c); [exact H| |exact H].
    destruct H as (n & w' & N & E & A & B & D). exists n, w'. split; [exact N|]. split; [exact E|]. split; [exact A|]. split; [exact B|]. rewrite D. reflexivity.
  - cbn [InterthreadModel.q_body InterthreadModel.q_get]. apply (turn_some take_first KQueue ms c (x :: q) d sn x q); reflexivity.
Qed.
Print Assumptions C103_as_queue.
Lemma find_lookup m key : find_key m key = InterthreadModel.lookup m key.
Proof. induction m as [|[j v] m IH]; [reflexivity|]. cbn [find_key InterthreadModel.lookup]. destruct (j =? key); [reflexivity|exact IH]. Qed.
Lemma drop_erase m key : drop_key m key = InterthreadModel.erase m key.
Proof. induction m as [|[j v] m IH]; [reflexivity|]. cbn [drop_key InterthreadModel.erase]. destruct (j =? key); [reflexivity|f_equal; exact IH]. Qed.
Theorem C103_as_map ms c key rm m d sn r : 0 < ms -> remaining d (tod c) = Ok r ->
  let w := W c Mine m STest d sn in
  match InterthreadModel.m_body m (InterthreadModel.MGetT key rm) (answer r c) with
  | Monitor.ODone m' (InterthreadModel.RFound v) [] [] => turn (take_key key rm) KMap ms w m' (fun a => a = SDone (Some v)) Free
  | Monitor.ODone m' InterthreadModel.RNotFound [] [] => turn (take_key key rm) KMap ms w m' (fun a => a = SDone None) Free
  | Monitor.OWait m' 0%nat => turn (take_key key rm) KMap ms w m' (fun a => exists t, a = SAsleep t) Free
  | Monitor.OSpin m' => turn (take_key key rm) KMap ms w m' (fun a => a = STest) Mine
  | _ => False
  end.
Proof.
  intros Ms R. cbv zeta. cbn [InterthreadModel.m_body]. destruct (InterthreadModel.lookup m key) as [v|] eqn:Lo.
  - unfold InterthreadModel.m_take. apply (turn_some (take_key key rm) KMap ms c m d sn v); [|reflexivity]. unfold take_key. rewrite find_lookup, Lo, drop_erase. reflexivity.
  - assert (Ta : take_key key rm m = None) by (unfold take_key; rewrite find_lookup, Lo; reflexivity).
    pose proof (turn_none (take_key key rm) KMap ms c m d sn r ltac:(discriminate) Ms Ta R) as H. destruct (answer r c); exact H.
Qed.
Print Assumptions C103_as_map.
(** A read(20) that sleeps, is woken for nothing, sleeps again, and gets what another thread wrote; and one that ends with NULL after 20.3 milliseconds. *)
Example C103_ex :
  (exists w, runs take_first KQueue 20 (start KQueue 20 1700000000123456 Others [])
     [Me; Unlock; Me; Me; Clock 1700000000123460; Me; Me; Clock 1700000000130000; Wake; Me; Me; Me; Me; Lock; Change [7; 8]; Unlock; Wake; Me; Me] = Ok w /\
   at_ w = SDone (Some 7) /\ contents w = [8] /\ mutex w = Free) /\
  (exists w, runs take_first KQueue 20 (start KQueue 20 1700000000123456 Free []) [Me; Me; Me; Me; Clock 1700000000123500; Me; Clock 1700000000143756; Me; Me; Me; Me] = Ok w /\ at_ w = SDone None) /\
  (exists w, runs take_first KQueue 20 (start KQueue 20 1700000000123456 Free []) [Me; Me; Me; Me; Me] = Ok w /\ at_ w = SAsleep (1700000000, 143456000) /\ step take_first KQueue 20 w Me = Diverge) /\
  ticking 1700000000123456 1700000000143756 ([Me; Clock 1700000000123500; Me; Clock 1700000000143756] : list (event (list Z))) /\ short 20 1700000000123456 1700000000143756.
Proof.
  split; [eexists; split; [vm_compute; reflexivity|]; repeat split; vm_compute; reflexivity|].
  split; [eexists; split; [vm_compute; reflexivity|]; vm_compute; reflexivity|].
  split; [eexists; split; [vm_compute; reflexivity|]; split; vm_compute; reflexivity|].
  split; [cbn [ticking]; lia|]. unfold short, days. lia.
Qed.
