(** C127: log records of static objects. *)
From Verif Require Import Base BaseFacts StatLogModel.
From Coq Require Import Lia.
Local Open Scope nat_scope.

(** ** What a program is to log *)
(** The records within their level, with priority and number: _LOG always, LOG if the priority is at most the level of the file. *)
Fixpoint passes (P : prog) (l : list rec) : list (nat * nat) :=
  match l with
  | [] => []
  | R None p id :: l => (p, id) :: passes P l
  | R (Some f) p id :: l => if p <=? lv P f then (p, id) :: passes P l else passes P l
  | Init _ :: l => passes P l
  end.
(** The records of an object. *)
Definition of_obj (h : nat -> list rec) (o : obj) : list rec := match o with U n => h n | _ => [] end.
(** All records in the order in which they are made: constructors, main, destructors from the last object to the first. *)
Definition whole (P : prog) : list rec := flat_map (of_obj (ctor P)) (order P) ++ main_ P ++ flat_map (of_obj (dtor P)) (rev (order P)).
(** Their numbers. *)
Definition ids (l : list (nat * nat)) : list nat := map snd l.
(** Those of priority CRIT or graver. *)
Definition grave (l : list (nat * nat)) : list (nat * nat) := filter (fun x => fst x <=? 2) l.
(** Does a record ask for a level? *)
Definition asks (r : rec) : bool := match r with R None _ _ => false | _ => true end.
(** The objects of Logger.cpp and gConfig come first; of the others, all those that log come after; and if destructors use LOG, the first
    of these others uses LOG in its constructor. *)
Definition settled (P : prog) : Prop := exists pre post, order P = pre ++ post /\
  In ALock pre /\ In AList pre /\ In Flag pre /\ In ToLock pre /\ In Cfg pre /\ ~ In Cache pre /\
  (forall n, In (U n) pre -> ctor P n = [] /\ dtor P n = []) /\ (forall o, In o post -> exists n, o = U n) /\
  ((forall n, In (U n) post -> existsb asks (dtor P n) = false) \/ (exists n post', post = U n :: post' /\ existsb asks (ctor P n) = true)).

(** ** Facts *)
Lemma use_in : forall s o, In o (stack s) -> use s o = Ok tt.
Proof.
  intros s o I. unfold use. replace (existsb (obj_eqb o) (stack s)) with true; [reflexivity|]. symmetry. apply existsb_exists. exists o. split; [exact I|].
  destruct o; cbn [obj_eqb]; auto. apply Nat.eqb_refl.
Qed.
(** Logger.cpp's objects and gConfig are there. *)
Record base (s : state) : Prop := B_ { b_in : inited s = true; b_l : In ALock (stack s); b_a : In AList (stack s); b_t : In ToLock (stack s); b_c : In Cfg (stack s) }.
(** Output of a piece. *)
Definition out (P : prog) (l : list rec) (s s' : state) : Prop :=
  sys s' = sys s ++ ids (passes P l) /\ alarms s' = alarms s ++ ids (grave (passes P l)).
Lemma emit_ok : forall s p id, base s -> exists s', emit s p id = Ok s' /\ sys s' = sys s ++ [id] /\ alarms s' = alarms s ++ (if p <=? 2 then [id] else []) /\
  stack s' = stack s /\ inited s' = inited s /\ cache s' = cache s.
Proof.
  intros s p id [I L A T C]. unfold emit, add_alarm. rewrite I. rewrite (use_in s ALock L), (use_in s AList A), (use_in s Cfg C). cbn [bind].
  destruct (p <=? 2); cbn [bind tofile]; destruct (tofile s); rewrite ?(use_in (State _ _ _ _ _ _ _) ToLock); try exact T; cbn [bind]; (eexists; split; [reflexivity|]); cbn [sys alarms stack inited cache];
    rewrite ?app_nil_r; auto 10.
Qed.
Lemma look_ok : forall s f, base s -> cache s <> Dead -> exists s', look s f = Ok s' /\ sys s' = sys s /\ alarms s' = alarms s /\ inited s' = inited s /\ cache s' = Alive /\
  (stack s' = stack s \/ (cache s = Not /\ stack s' = Cache :: stack s)) /\ (cache s = Alive -> stack s' = stack s).
Proof.
  intros s f [I L A T C] D. unfold look. destruct (cache s) eqn:E; [| |congruence]; cbn [bind cached stack].
  - destruct (existsb (Nat.eqb f) (cached s)).
    + eexists. split; [reflexivity|]. cbn [sys alarms stack inited cache]. repeat (split; [reflexivity|]). split; [auto|discriminate].
    + rewrite use_in by (right; exact C). cbn [bind]. eexists. split; [reflexivity|]. cbn [sys alarms stack inited cache]. repeat (split; [reflexivity|]). split; [auto|discriminate].
  - destruct (existsb (Nat.eqb f) (cached s)).
    + eexists. split; [reflexivity|]. repeat (split; [reflexivity|]). split; [exact E|]. auto.
    + rewrite use_in by exact C. cbn [bind]. eexists. split; [reflexivity|]. cbn [sys alarms stack inited cache]. repeat (split; [reflexivity|]). split; [exact E|]. auto.
Qed.
Lemma base_stack : forall s s', base s -> inited s' = inited s -> (forall o, In o (stack s) -> In o (stack s')) -> base s'.
Proof. intros s s' [I L A T C] E S. constructor; auto. congruence. Qed.
Lemma log1_ok : forall P s r, base s -> (asks r = true -> cache s <> Dead) -> exists s', log1 P s r = Ok s' /\ out P [r] s s' /\ base s' /\
  (stack s' = stack s \/ (cache s = Not /\ asks r = true /\ stack s' = Cache :: stack s)) /\ (asks r = false -> stack s' = stack s /\ cache s' = cache s) /\
  (asks r = true -> cache s' = Alive) /\ (cache s = Alive -> stack s' = stack s).
Proof.
  intros P s r H D. destruct r as [[f|] p id|b]; cbn [log1 asks] in *.
  - destruct (look_ok s f H (D eq_refl)) as (s1 & E1 & S1 & A1 & I1 & C1 & K1 & L1). rewrite E1. cbn [bind].
    assert (H1 : base s1). { apply base_stack with s; auto. intros o O. destruct K1 as [K1|(_ & K1)]; rewrite K1; [auto|right; auto]. }
    unfold out. cbn [passes]. destruct (p <=? lv P f) eqn:PL.
    + destruct (emit_ok s1 p id H1) as (s2 & E2 & S2 & A2 & K2 & I2 & C2). exists s2. split; [exact E2|]. unfold ids, grave. cbn [filter fst map snd].
      split; [split; [congruence|destruct (p <=? 2); cbn [map snd]; congruence]|]. split; [apply base_stack with s1; auto; intros o O; rewrite K2; exact O|].
      split; [destruct K1 as [K1|(K0 & K1)]; [left; congruence|right; split; [auto|split; [auto|congruence]]]|]. split; [discriminate|]. split; [intros _; congruence|].
      intros Q. rewrite K2. auto.
    + exists s1. split; [reflexivity|]. cbn [ids map grave filter]. rewrite !app_nil_r. split; [auto|]. split; [auto|].
      split; [destruct K1 as [K1|(K0 & K1)]; [left; congruence|right; auto]|]. split; [discriminate|]. auto.
  - destruct (emit_ok s p id H) as (s2 & E2 & S2 & A2 & K2 & I2 & C2). exists s2. split; [exact E2|]. unfold out, ids, grave. cbn [passes filter fst map snd].
    split; [split; [congruence|destruct (p <=? 2); cbn [map snd]; congruence]|]. split; [apply base_stack with s; auto; intros o O; rewrite K2; exact O|]. split; [auto|]. split; [auto|].
    split; [discriminate|]. auto.
  - assert (UC : use s Cfg = Ok tt) by (apply use_in; apply H). rewrite UC. cbn [bind]. set (s0 := State (stack s) (inited s) (tofile s || b) (cache s) (cached s) (alarms s) (sys s)).
    assert (H0 : base s0) by (apply base_stack with s; auto). destruct (look_ok s0 0 H0 (D eq_refl)) as (s1 & E1 & S1 & A1 & I1 & C1 & K1 & L1). exists s1. split; [exact E1|].
    unfold out. cbn [passes ids map grave filter]. rewrite !app_nil_r. split; [auto|].
    split. { apply base_stack with s0; auto. intros o O. destruct K1 as [K1|(_ & K1)]; rewrite K1; [auto|right; auto]. }
    split; [destruct K1 as [K1|(K0 & K1)]; [left; exact K1|right; auto]|]. split; [discriminate|]. auto.
Qed.
Lemma passes_cons : forall P r l, passes P (r :: l) = passes P [r] ++ passes P l.
Proof. intros P [[f|] p id|b] l; cbn [passes]; auto. destruct (p <=? lv P f); reflexivity. Qed.
Lemma passes_app : forall P a b, passes P (a ++ b) = passes P a ++ passes P b.
Proof. induction a as [|r a IH]; intros b; [reflexivity|]. cbn [app]. rewrite (passes_cons P r (a ++ b)), (passes_cons P r a), IH, app_assoc. reflexivity. Qed.
Lemma out_app : forall P a b s s1 s2, out P a s s1 -> out P b s1 s2 -> out P (a ++ b) s s2.
Proof.
  intros P a b s s1 s2 (A1 & A2) (B1 & B2). unfold out. rewrite passes_app. unfold ids, grave in *. rewrite filter_app, !map_app, B1, B2, A1, A2, <- !app_assoc. auto.
Qed.
Lemma out_nil : forall P s s', sys s' = sys s -> alarms s' = alarms s -> out P [] s s'.
Proof. intros P s s' A B. unfold out. cbn. rewrite !app_nil_r. auto. Qed.
Lemma logs_ok : forall P l s, base s -> (existsb asks l = true -> cache s <> Dead) -> exists s', logs P s l = Ok s' /\ out P l s s' /\ base s' /\
  (stack s' = stack s \/ (cache s = Not /\ stack s' = Cache :: stack s)) /\ (existsb asks l = false -> stack s' = stack s /\ cache s' = cache s) /\
  (existsb asks l = true -> cache s' = Alive) /\ (cache s = Alive -> stack s' = stack s /\ cache s' = Alive).
Proof.
  intros P l. induction l as [|r l IH]; intros s H D; cbn [logs existsb] in *.
  - exists s. split; [reflexivity|]. split; [apply out_nil; reflexivity|]. split; [auto|]. split; [auto|]. split; [auto|]. split; [discriminate|auto].
  - destruct (log1_ok P s r H) as (s1 & E1 & O1 & H1 & K1 & N1 & Y1 & L1). { intros A. apply D. rewrite A. reflexivity. }
    rewrite E1. cbn [bind]. destruct (IH s1 H1) as (s2 & E2 & O2 & H2 & K2 & N2 & Y2 & L2).
    { intros A. destruct (asks r) eqn:AR; [rewrite (Y1 eq_refl); discriminate|]. destruct (N1 eq_refl) as (_ & ->). apply D. rewrite A. reflexivity. }
    exists s2. split; [exact E2|]. split; [apply (out_app P [r] l s s1 s2 O1 O2)|]. split; [exact H2|].
    assert (K1' : asks r = true -> stack s2 = stack s1 /\ cache s2 = Alive) by (intros A; apply L2; exact (Y1 A)).
    split; [|split; [|split]].
    + destruct (asks r) eqn:AR.
      * destruct (K1' eq_refl) as (Q & _). destruct K1 as [K1|(K0 & _ & K1)]; [left; congruence|right; split; [auto|congruence]].
      * destruct (N1 eq_refl) as (Q1 & Q2). destruct K2 as [K2|(K0 & K2)]; [left; congruence|right; split; congruence].
    + intros A. apply Bool.orb_false_iff in A. destruct A as (A1 & A2). destruct (N1 A1) as (Q1 & Q2). destruct (N2 A2) as (Q3 & Q4). split; congruence.
    + intros A. destruct (asks r) eqn:AR; [apply K1'; reflexivity|]. apply Y2. exact A.
    + intros A. assert (Q := L1 A). destruct (asks r) eqn:AR.
      * destruct (K1' eq_refl) as (Q1 & Q2). split; congruence.
      * destruct (N1 eq_refl) as (Q1 & Q2). destruct (L2 (eq_trans Q2 A)) as (Q3 & Q4). split; congruence.
Qed.
(** The objects before the others. *)
Lemma pre_ok : forall P pre s, ~ In Cache pre -> (forall n, In (U n) pre -> ctor P n = [] /\ dtor P n = []) -> exists s', builds P s pre = Ok s' /\ stack s' = rev pre ++ stack s /\
  inited s' = (inited s || existsb (obj_eqb Flag) pre)%bool /\ cache s' = cache s /\ sys s' = sys s /\ alarms s' = alarms s.
Proof.
  intros P pre. induction pre as [|o pre IH]; intros s NC Q; cbn [builds].
  - exists s. cbn [existsb rev app]. rewrite Bool.orb_false_r. auto 10.
  - assert (X : exists s1, build P s o = Ok s1 /\ stack s1 = o :: stack s /\ inited s1 = (inited s || obj_eqb Flag o)%bool /\ cache s1 = cache s /\ sys s1 = sys s /\ alarms s1 = alarms s).
    { destruct o as [| | | | | |n]; cbn [build]; try (eexists; split; [reflexivity|]; cbn [push stack inited cache sys alarms obj_eqb]; rewrite ?Bool.orb_false_r, ?Bool.orb_true_r; auto 10).
      - exfalso. apply NC. left. reflexivity.
      - rewrite (proj1 (Q n (or_introl eq_refl))). cbn [logs bind]. eexists. split; [reflexivity|]. cbn [push stack inited cache sys alarms obj_eqb]. rewrite ?Bool.orb_false_r. auto 10. }
    destruct X as (s1 & E1 & S1 & I1 & C1 & Y1 & A1). rewrite E1. cbn [bind].
    destruct (IH s1) as (s2 & E2 & S2 & I2 & C2 & Y2 & A2). { intros I. apply NC. right. exact I. } { intros n I. apply Q. right. exact I. }
    exists s2. split; [exact E2|]. cbn [rev existsb]. rewrite <- app_assoc. cbn [app]. split; [congruence|]. split; [rewrite I2, I1, Bool.orb_assoc; reflexivity|]. split; [congruence|]. split; congruence.
Qed.
(** Construction of the others: what is new on the stack is these objects and perhaps the static variables. *)
Definition no_cache (l : list obj) : list obj := filter (fun o => negb (obj_eqb Cache o)) l.
Lemma post_ok : forall P post s, (forall o, In o post -> exists n, o = U n) -> base s -> cache s <> Dead -> exists s' top, builds P s post = Ok s' /\ stack s' = top ++ stack s /\ no_cache top = rev post /\
  (forall o, In o top -> o = Cache \/ In o post) /\ base s' /\ cache s' <> Dead /\ out P (flat_map (of_obj (ctor P)) post) s s' /\ (cache s = Alive -> cache s' = Alive /\ top = rev post).
Proof.
  intros P post. induction post as [|o post IH]; intros s UP H D; cbn [builds].
  - exists s, []. split; [reflexivity|]. split; [reflexivity|]. split; [reflexivity|]. split; [intros o []|]. split; [auto|]. split; [auto|]. split; [apply out_nil; reflexivity|auto].
  - destruct (UP o (or_introl eq_refl)) as (n & ->). cbn [build]. destruct (logs_ok P (ctor P n) s H (fun _ => D)) as (s1 & E1 & O1 & H1 & K1 & N1 & Y1 & L1). rewrite E1. cbn [bind].
    set (s1' := push s1 (U n) (inited s1)). assert (D1 : cache s1' <> Dead).
    { cbn [s1' push cache]. destruct (existsb asks (ctor P n)) eqn:X; [rewrite (Y1 eq_refl); discriminate|]. destruct (N1 eq_refl) as (_ & ->). exact D. }
    destruct (IH s1') as (s2 & top & E2 & S2 & T2 & I2 & H2 & D2 & O2 & L2); auto. { intros o I. apply UP. right. exact I. } { apply base_stack with s1; auto. intros o I. right. exact I. }
    assert (OO : out P (flat_map (of_obj (ctor P)) (U n :: post)) s s2) by (cbn [flat_map of_obj]; apply (out_app P _ _ s s1 s2 O1); exact O2).
    destruct K1 as [K1|(K0 & K1)].
    + exists s2, (top ++ [U n]). split; [exact E2|]. cbn [s1' push stack] in S2. split; [rewrite <- app_assoc; cbn [app]; congruence|].
      split; [unfold no_cache in *; rewrite filter_app, T2; reflexivity|]. split; [intros o I; apply in_app_or in I; destruct I as [I|[<-|[]]]; [destruct (I2 o I); auto; right; right; auto|right; left; reflexivity]|].
      split; [auto|]. split; [auto|]. split; [exact OO|]. intros A. destruct (L1 A) as (_ & A1). destruct (L2 A1) as (Q1 & ->). split; [exact Q1|reflexivity].
    + exists s2, (top ++ [U n; Cache]). split; [exact E2|]. cbn [s1' push stack] in S2. split; [rewrite <- app_assoc; cbn [app]; congruence|].
      split; [unfold no_cache in *; rewrite filter_app, T2; reflexivity|].
      split; [intros o I; apply in_app_or in I; destruct I as [I|[<-|[<-|[]]]]; [destruct (I2 o I); auto; right; right; auto|right; left; reflexivity|left; reflexivity]|].
      split; [auto|]. split; [auto|]. split; [exact OO|]. intros A. congruence.
Qed.
(** Destruction of the others. *)
Lemma top_quiet : forall P top s fuel rest, (forall o, In o top -> o = Cache \/ exists n, o = U n /\ existsb asks (dtor P n) = false) -> stack s = top ++ rest ->
  (forall s', stack s' = rest -> inited s' = inited s -> base s') -> exists s', unwind (length top + fuel) P s = unwind fuel P s' /\ stack s' = rest /\ inited s' = inited s /\ out P (flat_map (of_obj (dtor P)) (no_cache top)) s s'.
Proof.
  intros P top. induction top as [|o top IH]; intros s fuel rest Q E B.
  - exists s. split; [reflexivity|]. split; [exact E|]. split; [reflexivity|]. apply out_nil; reflexivity.
  - cbn [length plus unwind]. rewrite E. cbn [app]. destruct (Q o (or_introl eq_refl)) as [->|(n & -> & NA)].
    + destruct (IH (State (top ++ rest) (inited s) (tofile s) Dead (cached s) (alarms s) (sys s)) fuel rest) as (s' & E' & S' & I' & O'); auto. { intros o I. apply Q. right. exact I. }
      exists s'. split; [exact E'|]. split; [exact S'|]. split; [exact I'|]. exact O'.
    + set (s0 := State (top ++ rest) (inited s) (tofile s) (cache s) (cached s) (alarms s) (sys s)).
      assert (H0 : base s0). { apply base_stack with (State rest (inited s) (tofile s) (cache s) (cached s) (alarms s) (sys s)); auto. intros o I. apply in_or_app. right. exact I. }
      destruct (logs_ok P (dtor P n) s0 H0) as (s1 & E1 & O1 & H1 & K1 & N1 & _ & _). { rewrite NA. discriminate. }
      destruct (N1 NA) as (S1 & C1). rewrite E1. cbn [bind]. assert (I1 : inited s1 = inited s) by (rewrite (b_in s1 H1), <- (b_in s0 H0); reflexivity).
      destruct (IH s1 fuel rest) as (s' & E' & S' & I' & O'); auto. { intros o I. apply Q. right. exact I. } { intros s' A1 A2. apply B; congruence. }
      exists s'. split; [exact E'|]. split; [exact S'|]. split; [congruence|]. unfold no_cache. cbn [filter obj_eqb negb flat_map of_obj]. exact (out_app P _ _ s s1 s' O1 O').
Qed.
Lemma top_alive : forall P top s fuel rest, (forall o, In o top -> exists n, o = U n) -> stack s = top ++ rest -> cache s = Alive ->
  (forall s', stack s' = rest -> inited s' = inited s -> base s') -> exists s', unwind (length top + fuel) P s = unwind fuel P s' /\ stack s' = rest /\ inited s' = inited s /\ out P (flat_map (of_obj (dtor P)) top) s s'.
Proof.
  intros P top. induction top as [|o top IH]; intros s fuel rest Q E A B.
  - exists s. split; [reflexivity|]. split; [exact E|]. split; [reflexivity|]. apply out_nil; reflexivity.
  - cbn [length plus unwind]. rewrite E. cbn [app]. destruct (Q o (or_introl eq_refl)) as (n & ->).
    set (s0 := State (top ++ rest) (inited s) (tofile s) (cache s) (cached s) (alarms s) (sys s)).
    assert (H0 : base s0). { apply base_stack with (State rest (inited s) (tofile s) (cache s) (cached s) (alarms s) (sys s)); auto. intros o I. apply in_or_app. right. exact I. }
    destruct (logs_ok P (dtor P n) s0 H0) as (s1 & E1 & O1 & H1 & K1 & N1 & _ & L1). { intros _. cbn [s0 cache]. rewrite A. discriminate. }
    destruct (L1 A) as (S1 & C1). rewrite E1. cbn [bind]. assert (I1 : inited s1 = inited s) by (rewrite (b_in s1 H1), <- (b_in s0 H0); reflexivity).
    destruct (IH s1 fuel rest) as (s' & E' & S' & I' & O'); auto. { intros o I. apply Q. right. exact I. } { intros s' A1 A2. apply B; congruence. }
    exists s'. split; [exact E'|]. split; [exact S'|]. split; [congruence|]. cbn [flat_map of_obj]. exact (out_app P _ _ s s1 s' O1 O').
Qed.
(** Destruction of the first objects. *)
Lemma pre_end : forall P l s fuel, (forall n, In (U n) l -> dtor P n = []) -> stack s = l -> length l <= fuel -> exists s', unwind fuel P s = Ok s' /\ stack s' = [] /\ sys s' = sys s /\ alarms s' = alarms s.
Proof.
  intros P l. induction l as [|o l IH]; intros s fuel Q E L.
  - exists s. split; [destruct fuel; cbn [unwind]; rewrite E; reflexivity|]. auto.
  - cbn [length] in L. destruct fuel as [|fuel]; [lia|]. cbn [unwind]. rewrite E.
    set (s0 := State l (inited s) (tofile s) (match o with Cache => Dead | _ => cache s end) (cached s) (alarms s) (sys s)).
    destruct (IH s0 fuel) as (s' & E' & S' & Y' & A'); auto. { intros n I. apply Q. right. exact I. } { lia. }
    exists s'. split; [|auto]. destruct o; try exact E'. rewrite (Q n (or_introl eq_refl)). cbn [logs bind]. exact E'.
Qed.
Lemma pre_to : forall P l s fuel rest, (forall n, In (U n) l -> dtor P n = []) -> stack s = l ++ rest -> exists s', unwind (length l + fuel) P s = unwind fuel P s' /\ stack s' = rest /\ inited s' = inited s.
Proof.
  intros P l. induction l as [|o l IH]; intros s fuel rest Q E; [exists s; auto|]. cbn [length plus unwind]. rewrite E. cbn [app].
  set (s0 := State (l ++ rest) (inited s) (tofile s) (match o with Cache => Dead | _ => cache s end) (cached s) (alarms s) (sys s)).
  destruct (IH s0 fuel rest) as (s' & E' & S' & I'); auto. { intros n I. apply Q. right. exact I. }
  exists s'. split; [|auto]. destruct o; try exact E'. rewrite (Q n (or_introl eq_refl)). cbn [logs bind]. exact E'.
Qed.
Lemma unwind_cache : forall P s l fuel, stack s = Cache :: l -> unwind (S fuel) P s = unwind fuel P (State l (inited s) (tofile s) Dead (cached s) (alarms s) (sys s)).
Proof. intros P s l fuel E. cbn [unwind]. rewrite E. reflexivity. Qed.
Lemma unwind_u : forall P s n l fuel, stack s = U n :: l ->
  unwind (S fuel) P s = (do s <- logs P (State l (inited s) (tofile s) (cache s) (cached s) (alarms s) (sys s)) (dtor P n); unwind fuel P s).
Proof. intros P s n l fuel E. cbn [unwind]. rewrite E. reflexivity. Qed.
Lemma builds_app : forall P a b s, builds P s (a ++ b) = (do s <- builds P s a; builds P s b).
Proof. induction a as [|o a IH]; intros b s; [reflexivity|]. cbn [app builds]. destruct (build P s o); cbn [bind]; auto. Qed.
Lemma flag_in : forall l, In Flag l -> existsb (obj_eqb Flag) l = true.
Proof. intros l I. apply existsb_exists. exists Flag. auto. Qed.
Lemma flag_out : forall l, ~ In Flag l -> existsb (obj_eqb Flag) l = false.
Proof. intros l N. destruct (existsb (obj_eqb Flag) l) eqn:E; auto. exfalso. apply existsb_exists in E. destruct E as (o & I & Q). destruct o; try discriminate. auto. Qed.
Lemma use_out : forall s o, ~ In o (stack s) -> use s o = UB.
Proof.
  intros s o N. unfold use. destruct (existsb (obj_eqb o) (stack s)) eqn:E; auto. exfalso. apply existsb_exists in E. destruct E as (x & I & Q). apply N.
  destruct o, x; try discriminate; try exact I. cbn [obj_eqb] in Q. apply Nat.eqb_eq in Q. subst. exact I.
Qed.
Lemma silent_flat : forall h l, (forall n, In (U n) l -> h n = []) -> flat_map (of_obj h) l = [].
Proof.
  intros h l. induction l as [|o l IH]; intros Q; [reflexivity|]. cbn [flat_map]. rewrite IH by (intros n I; apply Q; right; exact I). rewrite app_nil_r.
  destruct o; auto. apply Q. left. reflexivity.
Qed.
(** The library's objects, with silent others. *)
Definition ready (P : prog) (pre : list obj) : Prop :=
  In ALock pre /\ In AList pre /\ In Flag pre /\ In ToLock pre /\ In Cfg pre /\ ~ In Cache pre /\ (forall n, In (U n) pre -> ctor P n = [] /\ dtor P n = []).
Lemma ready_ok : forall P pre s, ready P pre -> exists s', builds P s pre = Ok s' /\ stack s' = rev pre ++ stack s /\ base s' /\ cache s' = cache s /\ sys s' = sys s /\ alarms s' = alarms s.
Proof.
  intros P pre s (L & A & F & T & C & N & Q). destruct (pre_ok P pre s N Q) as (s' & E & S & I & K & Y & M). exists s'. split; [exact E|]. split; [exact S|]. split; [|auto].
  rewrite (flag_in pre F), Bool.orb_true_r in I. constructor; [exact I| | | |]; rewrite S; apply in_or_app; left; rewrite <- in_rev; assumption.
Qed.
Lemma base_rest : forall P pre s s', ready P pre -> base s -> stack s' = rev pre -> inited s' = inited s -> base s'.
Proof. intros P pre s s' (L & A & F & T & C & _) H E I. constructor; [rewrite I; apply H| | | |]; rewrite E, <- in_rev; assumption. Qed.
Lemma tail_top : forall P (top pre : list obj) s fuel s1, (exists s', unwind (length top + fuel) P s = unwind fuel P s' /\ stack s' = rev pre /\ inited s' = inited s /\ out P s1 s s') -> (forall n, In (U n) pre -> dtor P n = []) ->
  length pre <= fuel -> exists s', unwind (length top + fuel) P s = Ok s' /\ stack s' = [] /\ out P s1 s s'.
Proof.
  intros P top pre s fuel l (s1 & E1 & S1 & _ & (O1 & O2)) Q F. destruct (pre_end P (rev pre) s1 fuel) as (s2 & E2 & S2 & Y2 & A2); auto.
  { intros n I. apply Q. rewrite in_rev. exact I. } { rewrite rev_length. exact F. }
  exists s2. split; [congruence|]. split; [exact S2|]. unfold out. rewrite Y2, A2. auto.
Qed.

(** ** C127 *)
(** A settled program is defined to its end and syslog is given exactly its records within their levels, in order; the alarms are those of
    priority CRIT or graver. *)
Theorem C127_settled : forall P, settled P -> exists s, run P = Ok s /\ stack s = [] /\ sys s = ids (passes P (whole P)) /\ alarms s = ids (grave (passes P (whole P))).
Proof.
  intros P (pre & post & EO & L & A & F & T & C & N & Q & UP & W).
  assert (R0 : ready P pre) by (unfold ready; auto 10). unfold run. rewrite EO, builds_app.
  destruct (ready_ok P pre start R0) as (s0 & E0 & S0 & H0 & K0 & Y0 & M0). rewrite E0. cbn [bind]. cbn [start stack cache sys alarms] in *. rewrite app_nil_r in S0.
  assert (D0 : cache s0 <> Dead) by (rewrite K0; discriminate).
  destruct (post_ok P post s0 UP H0 D0) as (s1 & top & E1 & S1 & T1 & I1 & H1 & D1 & O1 & _). rewrite E1. cbn [bind].
  destruct (logs_ok P (main_ P) s1 H1 (fun _ => D1)) as (s2 & E2 & O2 & H2 & K2 & N2 & Y2 & L2). rewrite E2. cbn [bind].
  assert (OW : flat_map (of_obj (ctor P)) (order P) = flat_map (of_obj (ctor P)) post).
  { rewrite EO, flat_map_app, (silent_flat (ctor P) pre); [reflexivity|]. intros n I. apply (Q n I). }
  assert (OD : flat_map (of_obj (dtor P)) (rev (order P)) = flat_map (of_obj (dtor P)) (rev post)).
  { rewrite EO, rev_app_distr, flat_map_app, (silent_flat (dtor P) (rev pre)); [apply app_nil_r|]. intros n I. apply (Q n). rewrite in_rev. exact I. }
  enough (X : exists s', unwind (S (length (stack s2))) P s2 = Ok s' /\ stack s' = [] /\ out P (flat_map (of_obj (dtor P)) (rev post)) s2 s').
  { destruct X as (s3 & E3 & S3 & O3). exists s3. split; [exact E3|]. split; [exact S3|].
    assert (OO := out_app P _ _ s0 s1 s3 O1 (out_app P _ _ s1 s2 s3 O2 O3)). unfold whole. rewrite OW, OD. destruct OO as (X1 & X2). rewrite Y0 in X1. rewrite M0 in X2. auto. }
  assert (SS : exists top2, stack s2 = top2 ++ rev pre /\ no_cache top2 = rev post /\ (forall o, In o top2 -> o = Cache \/ In o post)).
  { destruct K2 as [K2|(_ & K2)]; [exists top|exists (Cache :: top)]; (split; [rewrite K2, S1, S0; reflexivity|]); (split; [exact T1|]); [exact I1|]. intros o [<-|I]; auto. }
  destruct W as [W|(n & post' & EP & W)].
  - destruct SS as (top2 & S2 & T2 & I2). rewrite S2, app_length, <- T2.
    replace (S (length top2 + length (rev pre))) with (length top2 + S (length (rev pre))) by lia.
    apply tail_top with pre; [|intros m I; apply (Q m I)|rewrite rev_length; lia].
    apply top_quiet; [|exact S2|intros s' X1 X2; exact (base_rest P pre s2 s' R0 H2 X1 X2)].
    intros o I. destruct (I2 o I) as [->|J]; [left; reflexivity|]. right. destruct (UP o J) as (m & ->). exists m. auto.
  - (* the first of the others has made the static variables *)
    subst post. cbn [builds build] in E1. destruct (logs_ok P (ctor P n) s0 H0 (fun _ => D0)) as (q1 & G1 & P1 & B1 & K1 & _ & V1 & _). rewrite G1 in E1. cbn [bind] in E1.
    set (q2 := push q1 (U n) (inited q1)) in *. assert (CA : cache q2 = Alive) by (cbn [q2 push cache]; exact (V1 W)).
    assert (CS : stack q1 = Cache :: rev pre \/ stack q1 = rev pre) by (destruct K1 as [K1|(_ & K1)]; rewrite K1, S0; auto).
    destruct (post_ok P post' q2) as (q3 & top3 & G3 & S3 & _ & _ & _ & _ & _ & L3). { intros o I. apply UP. right. exact I. }
    { apply base_stack with q1; auto. intros o I. right. exact I. } { rewrite CA. discriminate. }
    assert (q3 = s1) by congruence. subst q3. destruct (L3 CA) as (A3 & ->). destruct (L2 A3) as (Z1 & Z2).
    assert (ST : stack s2 = (rev post' ++ [U n]) ++ stack q1) by (rewrite Z1, S3, <- app_assoc; reflexivity).
    change (rev (U n :: post')) with (rev post' ++ [U n]). set (tp := rev post' ++ [U n]) in *.
    assert (UT : forall o, In o tp -> exists m, o = U m). { intros o I. apply UP. unfold tp in I. apply in_app_or in I. destruct I as [I|[<-|[]]]; [right; rewrite in_rev; exact I|left; reflexivity]. }
    rewrite ST, app_length. replace (S (length tp + length (stack q1))) with (length tp + S (length (stack q1))) by lia.
    destruct (top_alive P tp s2 (S (length (stack q1))) (stack q1) UT ST Z2) as (s3 & E3 & S3' & I3 & O3).
    { intros s' X1 X2. apply base_stack with q1; auto. { rewrite X2, (b_in s2 H2), (b_in q1 B1). reflexivity. } intros o I. rewrite X1. exact I. }
    rewrite E3. destruct (pre_end P (stack q1) s3 (S (length (stack q1)))) as (s4 & E4 & S4 & Y4 & M4); [|exact S3'|lia|].
    { intros m I. apply (Q m). destruct CS as [CS|CS]; rewrite CS in I; [destruct I as [I|I]; [discriminate|]|]; rewrite in_rev; exact I. }
    exists s4. split; [exact E4|]. split; [exact S4|]. destruct O3 as (X1 & X2). unfold out. rewrite Y4, M4. auto.
Qed.
(** Before sCheckloggerInitStatus is constructed, records made with _LOG are defined, reach syslog and are no alarms, whatever else is there. *)
Theorem C127_guard : forall P pre, ~ In Flag pre -> ~ In Cache pre -> (forall n r, In (U n) pre -> In r (ctor P n) -> exists p id, r = R None p id) ->
  exists s, builds P start pre = Ok s /\ sys s = ids (passes P (flat_map (of_obj (ctor P)) pre)) /\ alarms s = [] /\ stack s = rev pre.
Proof.
  intros P.
  assert (LG : forall l s, (forall r, In r l -> exists p id, r = R None p id) -> inited s = false -> tofile s = false -> exists s', logs P s l = Ok s' /\ sys s' = sys s ++ ids (passes P l) /\
    alarms s' = alarms s /\ stack s' = stack s /\ inited s' = false /\ tofile s' = false).
  { induction l as [|r l IH]; intros s Q I T; cbn [logs]. { exists s. cbn [passes ids map]. rewrite app_nil_r. auto 10. }
    destruct (Q r (or_introl eq_refl)) as (p & id & ->). cbn [log1]. unfold emit. rewrite I.
    replace (if p <=? 2 then Ok s else Ok s) with (Ok s) by (destruct (p <=? 2); reflexivity). cbn [bind tofile]. rewrite T. cbn [bind].
    destruct (IH (State (stack s) (inited s) false (cache s) (cached s) (alarms s) (sys s ++ [id]))) as (s' & E & Y & M & S & I' & T'); [intros r J; apply Q; right; exact J|exact I|reflexivity|].
    exists s'. split; [first [exact E | rewrite I in *; exact E]|]. cbn [sys] in Y. unfold ids in *. cbn [passes map snd]. rewrite Y, <- app_assoc. auto 10. }
  assert (G : forall pre s, ~ In Flag pre -> ~ In Cache pre -> (forall n r, In (U n) pre -> In r (ctor P n) -> exists p id, r = R None p id) -> inited s = false -> tofile s = false ->
    exists s', builds P s pre = Ok s' /\ sys s' = sys s ++ ids (passes P (flat_map (of_obj (ctor P)) pre)) /\ alarms s' = alarms s /\ stack s' = rev pre ++ stack s).
  { induction pre as [|o pre IH]; intros s NF NC Q I T; cbn [builds]. { exists s. cbn [flat_map passes ids map rev app]. rewrite app_nil_r. auto. }
    assert (X : exists s1, build P s o = Ok s1 /\ sys s1 = sys s ++ ids (passes P (of_obj (ctor P) o)) /\ alarms s1 = alarms s /\ stack s1 = o :: stack s /\ inited s1 = false /\ tofile s1 = false).
    { destruct o as [| | | | | |n]; cbn [build of_obj passes ids map]; rewrite ?app_nil_r; try (eexists; split; [reflexivity|]; cbn [push stack inited tofile sys alarms]; auto 10).
      - exfalso. apply NF. left. reflexivity.
      - exfalso. apply NC. left. reflexivity.
      - destruct (LG (ctor P n) s (fun r J => Q n r (or_introl eq_refl) J) I T) as (s1 & E & Y & M & S & I1 & T1). rewrite E. cbn [bind]. eexists. split; [reflexivity|].
        cbn [push stack inited tofile sys alarms]. rewrite S. auto 10. }
    destruct X as (s1 & E1 & Y1 & M1 & S1 & I1 & T1). rewrite E1. cbn [bind].
    destruct (IH s1) as (s2 & E2 & Y2 & M2 & S2); auto. { intros J. apply NF. right. exact J. } { intros J. apply NC. right. exact J. } { intros n r J. apply Q. right. exact J. }
    exists s2. split; [exact E2|]. cbn [flat_map rev]. rewrite passes_app. unfold ids in *. rewrite map_app, Y2, Y1, S2, S1, <- !app_assoc. cbn [app]. split; [reflexivity|]. split; [congruence|reflexivity]. }
  intros pre NF NC Q. destruct (G pre start NF NC Q eq_refl eq_refl) as (s & E & Y & M & S). exists s. cbn [start stack sys alarms] in *. rewrite app_nil_r in S. auto.
Qed.
(** Defects. The flag guards the lists of Logger.cpp only: an alarm after it but before gConfig is undefined. *)
Theorem C127_alarm_refuted : forall P pre n post p id l, order P = pre ++ U n :: post -> ~ In Cache pre -> (forall m, In (U m) pre -> ctor P m = [] /\ dtor P m = []) ->
  In Flag pre -> ~ In Cfg pre -> ctor P n = R None p id :: l -> p <= 2 -> run P = UB.
Proof.
  intros P pre n post p id l EO N Q F C EC LP. unfold run. rewrite EO, builds_app. destruct (pre_ok P pre start N Q) as (s & E & S & I & _). rewrite E. cbn [bind builds build].
  rewrite (flag_in pre F), Bool.orb_true_r in I. cbn [start stack] in S. rewrite app_nil_r in S. rewrite EC. cbn [logs log1]. unfold emit, add_alarm. rewrite (proj2 (Nat.leb_le p 2) LP), I.
  rewrite (use_out s Cfg) by (rewrite S, <- in_rev; exact C). unfold use. destruct (existsb (obj_eqb ALock) (stack s)), (existsb (obj_eqb AList) (stack s)); reflexivity.
Qed.
(** LOG of any priority before gConfig is undefined, with or without the flag. *)
Theorem C127_early_refuted : forall P pre n post f p id l, order P = pre ++ U n :: post -> ~ In Cache pre -> (forall m, In (U m) pre -> ctor P m = [] /\ dtor P m = []) ->
  ~ In Cfg pre -> ctor P n = R (Some f) p id :: l -> run P = UB.
Proof.
  intros P pre n post f p id l EO N Q C EC. unfold run. rewrite EO, builds_app. destruct (pre_ok P pre start N Q) as (s & E & S & I & K & _). rewrite E. cbn [bind builds build].
  cbn [start stack cache] in S, K. rewrite app_nil_r in S. rewrite EC. cbn [logs log1]. unfold look. rewrite K. cbn [bind cached].
  assert (CE : cached s = []).
  { clear - E Q. assert (G : forall pre s s', (forall m, In (U m) pre -> ctor P m = [] /\ dtor P m = []) -> builds P s pre = Ok s' -> cached s' = cached s).
    { induction pre0 as [|o pre0 IH]; intros a b Q0 E0; cbn [builds] in E0; [congruence|]. destruct (build P a o) as [a1| | |] eqn:B; cbn [bind] in E0; try discriminate.
      rewrite (IH a1 b) by (auto; intros m J; apply Q0; right; exact J). destruct o; cbn [build] in B; try (injection B as <-; reflexivity).
      rewrite (proj1 (Q0 n (or_introl eq_refl))) in B. cbn [logs bind] in B. injection B as <-. reflexivity. }
    exact (G pre start s Q E). }
  rewrite CE. cbn [existsb]. rewrite use_out; [reflexivity|]. cbn [stack]. rewrite S. intros [J|J]; [discriminate|]. apply C. rewrite in_rev. exact J.
Qed.
(** The flag is never reset: an alarm in the destructor of an object constructed before Logger.cpp's is undefined, whatever main logs. *)
Theorem C127_late_refuted : forall P n pre p id l, order P = U n :: pre -> ctor P n = [] -> ready P pre -> dtor P n = R None p id :: l -> p <= 2 -> run P = UB.
Proof.
  intros P n pre p id l EO EC RP ED LP. unfold run. rewrite EO. cbn [builds build]. rewrite EC. cbn [logs bind].
  destruct (ready_ok P pre (push start (U n) (inited start)) RP) as (s & E & S & H & K & _). rewrite E. cbn [bind]. cbn [push start stack cache] in S, K.
  destruct (logs_ok P (main_ P) s H) as (s2 & E2 & _ & H2 & K2 & _). { intros _. rewrite K. discriminate. } rewrite E2. cbn [bind].
  assert (SS : exists tp, stack s2 = tp ++ [U n] /\ (forall m, In (U m) tp -> dtor P m = [])).
  { assert (Q : forall m, In (U m) (rev pre) -> dtor P m = []). { intros m I. apply RP. rewrite in_rev. exact I. }
    destruct K2 as [K2|(_ & K2)]; [exists (rev pre)|exists (Cache :: rev pre)]; (split; [rewrite K2, S; reflexivity|]); [exact Q|]. intros m [I|I]; [discriminate|auto]. }
  destruct SS as (tp & S2 & Q2). rewrite S2, app_length. cbn [length]. replace (Datatypes.S (length tp + 1)) with (length tp + 2) by lia.
  destruct (pre_to P tp s2 2 [U n] Q2 S2) as (s3 & E3 & S3 & I3). rewrite E3. cbn [unwind]. rewrite S3, ED. cbn [logs log1]. unfold emit, add_alarm. cbn [inited].
  rewrite (proj2 (Nat.leb_le p 2) LP), I3, (b_in s2 H2). reflexivity.
Qed.
(** LOG in the destructor of an object constructed before the first LOG is undefined: the static variables are gone by then. *)
Theorem C127_cache_refuted : forall P pre n f p id l, order P = pre ++ [U n] -> ready P pre -> existsb asks (ctor P n) = false -> existsb asks (main_ P) = true ->
  dtor P n = R (Some f) p id :: l -> run P = UB.
Proof.
  intros P pre n f p id l EO RP NA YA ED. unfold run. rewrite EO, builds_app. destruct (ready_ok P pre start RP) as (s & E & S & H & K & _). rewrite E. cbn [bind builds build].
  cbn [start cache] in K. destruct (logs_ok P (ctor P n) s H) as (s1 & E1 & _ & H1 & _ & N1 & _). { intros _. rewrite K. discriminate. } destruct (N1 NA) as (S1 & C1). rewrite E1. cbn [bind].
  set (q := push s1 (U n) (inited s1)). assert (HQ : base q) by (apply base_stack with s1; auto; intros o I; right; exact I).
  assert (CQ : cache q = Not) by (cbn [q push cache]; congruence).
  destruct (logs_ok P (main_ P) q HQ) as (s2 & E2 & _ & H2 & K2 & _ & Y2 & _). { intros _. rewrite CQ. discriminate. } rewrite E2. cbn [bind].
  assert (SK : stack s2 = Cache :: stack q).
  { destruct K2 as [K2|(_ & K2)]; [|exact K2]. exfalso. clear - E2 K2 CQ YA.
    assert (G1 : forall s f s', look s f = Ok s' -> length (stack s') + (match cache s with Not => 1 | _ => 0 end) = length (stack s) + (match cache s with Not => 2 | _ => 0 end) /\ cache s' = Alive).
    { intros a g b X. unfold look in X. apply bind_ok in X. destruct X as (c & X1 & X2).
      assert (Y : stack b = stack c /\ cache b = cache c).
      { destruct (existsb (Nat.eqb g) (cached c)); [injection X2 as <-; auto|]. apply bind_ok in X2. destruct X2 as (? & _ & X2). injection X2 as <-. auto. }
      destruct Y as (-> & ->). destruct (cache a) eqn:CA; [injection X1 as <-|injection X1 as <-|discriminate]; cbn [stack cache length]; split; auto; lia. }
    assert (G2 : forall s p id s', emit s p id = Ok s' -> stack s' = stack s /\ cache s' = cache s).
    { intros a x y b. unfold emit. intros X. apply bind_ok in X. destruct X as (c & X1 & X2).
      assert (Y : stack c = stack a /\ cache c = cache a).
      { destruct (x <=? 2); [|injection X1 as <-; auto]. destruct (inited a); [|injection X1 as <-; auto]. unfold add_alarm in X1.
        do 3 (apply bind_ok in X1; destruct X1 as (? & _ & X1)). injection X1 as <-. auto. }
      cbn [tofile] in X2. destruct (tofile c); [apply bind_ok in X2; destruct X2 as (? & _ & X2)|]; injection X2 as <-; exact Y. }
    assert (G3 : forall l s s', logs P s l = Ok s' -> length (stack s) <= length (stack s') /\ (cache s = Not -> existsb asks l = true -> length (stack s) < length (stack s'))).
    { induction l as [|r l IH]; intros a b X; cbn [logs] in X; [injection X as <-; split; [lia|discriminate]|]. destruct (log1 P a r) as [c| | |] eqn:Z; cbn [bind] in X; try discriminate.
      destruct (IH c b X) as (J1 & J2). destruct r as [[g|] x y|bb]; cbn [log1 existsb asks orb] in *.
      - destruct (look a g) as [d| | |] eqn:LK; cbn [bind] in Z; try discriminate. destruct (G1 a g d LK) as (M1 & M2).
        assert (SD : stack c = stack d) by (destruct (x <=? lv P g); [apply (G2 d x y c Z)|injection Z as <-; reflexivity]). rewrite SD in *. destruct (cache a); split; intros; try discriminate; lia.
      - destruct (G2 a x y c Z) as (M1 & M2). rewrite M1, M2 in *. auto.
      - unfold use in Z. destruct (existsb (obj_eqb Cfg) (stack a)); cbn [bind] in Z; try discriminate. destruct (G1 _ _ _ Z) as (M1 & M2). cbn [stack cache] in M1. destruct (cache a); split; intros; try discriminate; lia. }
    destruct (G3 _ _ _ E2) as (_ & X). specialize (X CQ YA). rewrite K2 in X. lia. }
  rewrite SK. cbn [length]. rewrite (unwind_cache P s2 (stack q) _ SK), (unwind_u P _ n (stack s1)) by reflexivity. rewrite ED. reflexivity.
Qed.
(** With a log file opened by a static object before Logger.cpp's are constructed, any record is undefined, the flag notwithstanding. *)
Theorem C127_file_refuted : forall P pre n post p id l, order P = pre ++ U n :: post -> ~ In Cache pre -> (forall m, In (U m) pre -> ctor P m = [] /\ dtor P m = []) ->
  In Cfg pre -> ~ In Flag pre -> ~ In ToLock pre -> ctor P n = Init true :: R None p id :: l -> run P = UB.
Proof.
  intros P pre n post p id l EO N Q C F T EC. unfold run. rewrite EO, builds_app. destruct (pre_ok P pre start N Q) as (s & E & S & I & K & _). rewrite E. cbn [bind builds build].
  rewrite (flag_out pre F) in I. cbn [start stack inited cache orb] in S, I, K. rewrite app_nil_r in S. rewrite EC. cbn [logs log1].
  rewrite (use_in s Cfg) by (rewrite S, <- in_rev; exact C). cbn [bind]. unfold look at 1. cbn [cache]. rewrite K. cbn [bind cached]. rewrite Bool.orb_true_r.
  assert (NT : ~ In ToLock (Cache :: stack s)). { rewrite S. intros [J|J]; [discriminate|]. apply T. rewrite in_rev. exact J. }
  assert (EM : forall s1, stack s1 = Cache :: stack s -> inited s1 = false -> tofile s1 = true -> emit s1 p id = UB).
  { intros s1 A1 A2 A3. unfold emit. rewrite A2. replace (if p <=? 2 then Ok s1 else Ok s1) with (Ok s1) by (destruct (p <=? 2); reflexivity). cbn [bind tofile]. rewrite A3, use_out; [reflexivity|].
    cbn [stack]. rewrite A1. exact NT. }
  destruct (existsb (Nat.eqb 0) (cached s)); cbn [bind].
  - rewrite EM; auto.
  - rewrite use_in by (cbn [stack]; right; rewrite S, <- in_rev; exact C). cbn [bind]. rewrite EM; auto.
Qed.

(** ** Examples *)
Definition lib : list obj := [ALock; AList; Flag; ToLock].
Definition none (n : nat) : list rec := [].
(** Two objects that log in constructor and destructor, after the library. *)
Definition good : prog := Prog (lib ++ [Cfg; U 0; U 1]) (fun n => [R (Some 7) 2 n; R (Some 7) 6 9]) [Init true; R (Some 8) 3 10; R None 7 11] (fun n => [R (Some 8) 5 (20 + n); R None 1 (30 + n)]) (fun f => f - 3).
Example good_settled : settled good.
Proof.
  exists (lib ++ [Cfg]), [U 0; U 1]. split; [reflexivity|]. do 5 (split; [cbn; tauto|]). split; [cbn; intuition discriminate|].
  split; [intros n I; exfalso; cbn in I; intuition discriminate|]. split; [intros o I; cbn in I; destruct I as [<-|[<-|[]]]; eauto|]. right. exists 0, [U 1]. split; reflexivity.
Qed.
Example good_runs : exists s, run good = Ok s /\ sys s = [0; 1; 10; 11; 21; 31; 20; 30] /\ alarms s = [0; 1; 31; 30].
Proof. eexists. split; [vm_compute; reflexivity|]. split; reflexivity. Qed.
(** A settled program whose destructors use only _LOG, the static variables being made by main. *)
Definition good2 : prog := Prog (Cfg :: lib ++ [U 0]) none [R (Some 1) 3 1] (fun n => [R None 2 2]) (fun _ => 3).
Example good2_settled : settled good2.
Proof.
  exists (Cfg :: lib), [U 0]. split; [reflexivity|]. do 5 (split; [cbn; tauto|]). split; [cbn; intuition discriminate|].
  split; [intros n I; split; [reflexivity|exfalso; cbn in I; intuition discriminate]|]. split; [intros o [<-|[]]; eauto|]. left. intros n I. reflexivity.
Qed.
Example good2_runs : exists s, run good2 = Ok s /\ sys s = [1; 2] /\ alarms s = [2].
Proof. eexists. split; [vm_compute; reflexivity|]. split; reflexivity. Qed.
(** An alarm before everything: it reaches syslog and is lost as an alarm. *)
Example guard_runs : exists s, run (Prog (U 0 :: lib ++ [Cfg]) (fun _ => [R None 0 5; R None 7 6]) [R None 2 7] none (fun _ => 3)) = Ok s /\ sys s = [5; 6; 7] /\ alarms s = [7].
Proof. eexists. split; [vm_compute; reflexivity|]. split; reflexivity. Qed.
(** The defects; next to each the same records one place later. *)
Definition lv3 (f : nat) : nat := 3.
Example alarm_runs : run (Prog (lib ++ [U 0; Cfg]) (fun _ => [R None 2 1]) [] none lv3) = UB /\
  exists s, run (Prog (lib ++ [U 0; Cfg]) (fun _ => [R None 3 1]) [] none lv3) = Ok s /\ sys s = [1].
Proof. split; [reflexivity|]. eexists. split; [vm_compute; reflexivity|]. reflexivity. Qed.
Example early_runs : run (Prog (U 0 :: Cfg :: lib) (fun _ => [R (Some 1) 7 1]) [] none lv3) = UB /\
  exists s, run (Prog (Cfg :: U 0 :: lib) (fun _ => [R (Some 1) 3 1]) [] none lv3) = Ok s /\ sys s = [1].
Proof. split; [reflexivity|]. eexists. split; [vm_compute; reflexivity|]. reflexivity. Qed.
Example late_runs : run (Prog (U 0 :: lib ++ [Cfg]) none [R None 2 1] (fun _ => [R None 2 2]) lv3) = UB /\
  exists s, run (Prog (U 0 :: lib ++ [Cfg]) none [R None 2 1] (fun _ => [R None 3 2]) lv3) = Ok s /\ sys s = [1; 2].
Proof. split; [reflexivity|]. eexists. split; [vm_compute; reflexivity|]. reflexivity. Qed.
Example cache_runs : run (Prog (lib ++ [Cfg; U 0]) none [R (Some 1) 3 1] (fun _ => [R (Some 1) 3 2]) lv3) = UB /\
  exists s, run (Prog (lib ++ [Cfg; U 0]) none [R None 3 1] (fun _ => [R (Some 1) 3 2]) lv3) = Ok s /\ sys s = [1; 2].
Proof. split; [reflexivity|]. eexists. split; [vm_compute; reflexivity|]. reflexivity. Qed.
Example file_runs : run (Prog (Cfg :: U 0 :: lib) (fun _ => [Init true; R None 7 1]) [] none lv3) = UB /\
  exists s, run (Prog (Cfg :: U 0 :: lib) (fun _ => [Init false; R None 7 1]) [] none lv3) = Ok s /\ sys s = [1].
Proof. split; [reflexivity|]. eexists. split; [vm_compute; reflexivity|]. reflexivity. Qed.

Print Assumptions C127_settled.
Print Assumptions C127_guard.
Print Assumptions C127_alarm_refuted.
Print Assumptions C127_early_refuted.
Print Assumptions C127_late_refuted.
Print Assumptions C127_cache_refuted.
Print Assumptions C127_file_refuted.
