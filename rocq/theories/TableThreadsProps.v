(** C92: threads that use a configuration table at the same time. *)
From Verif Require Import Base BaseFacts UtilsModel SqlModel SqlProofs ConfigModel ConfigSpec ConfigProofs TableThreadsModel.
From Coq Require Import Sorting.Sorted.
Local Open Scope Z_scope.

(** ** Specification *)
(** All calls are on table [t], and isValidValue is asked for known names only. *)
Definition uses (t : nat) (known : schema) (l : label) : Prop :=
  match l with
  | LCall _ t' c => t' = t /\ match c with CValid k => known k <> None | _ => True end
  | _ => True
  end.
(** The clock before the step with this number. *)
Fixpoint clock_at (c0 : Z) (ls : list label) (n : nat) : Z :=
  match n, ls with
  | S n, LTick d :: ls => clock_at (c0 + d) ls n
  | S n, _ :: ls => clock_at c0 ls n
  | _, _ => c0
  end.
(** The calls one after the other, each at once: thread, call, result, the number of the step where it
    takes effect, the time it sees and whether the database answers it; and what other processes do, with
    the number of the step. *)
Inductive item := Op (i : nat) (c : call) (o : output) (p : nat) (tm : Z) (up : bool) | Ext (r : rows) (p : nat).
Definition event_of (t : nat) (c : call) (up : bool) : option event :=
  match c with
  | CGet k => Some (EGet t k up)
  | CSet k v => Some (ESet t k v up)
  | CRemove k => Some (ERemove t k up)
  | CPurge => Some (EPurge t)
  | CValid _ => None
  end.
Definition mem := (Z * cache * rows)%type.
(** ConfigModel's cstep, which performs a whole call. *)
Inductive replays (t : nat) (K : schema) : mem -> list item -> mem -> Prop :=
| RNil m : replays t K m [] m
| ROp last c r l i ca o p tm up e w m :
    event_of t ca up = Some e -> cstep K (World tm last (fun _ => CTable c r)) e = (o, w) ->
    replays t K (lastPurge w, tcache (tabs w t), tdb (tabs w t)) l m -> replays t K (last, c, r) (Op i ca o p tm up :: l) m
| RExt last c r r' p l m : replays t K (last, c, r') l m -> replays t K (last, c, r) (Ext r' p :: l) m.
Fixpoint positions (l : list item) : list nat :=
  match l with [] => [] | Op _ _ _ p _ _ :: l => p :: positions l | Ext _ p :: l => p :: positions l end.
(** The changes by other processes with the numbers of their steps; [n]: the number of the first step. *)
Fixpoint externals (t : nat) (n : nat) (ls : list label) : list (rows * nat) :=
  match ls with
  | [] => []
  | LExternal t' r :: ls => if (t' =? t)%nat then (r, n) :: externals t (S n) ls else externals t (S n) ls
  | _ :: ls => externals t (S n) ls
  end.
Fixpoint exts (l : list item) : list (rows * nat) := match l with [] => [] | Ext r p :: l => (r, p) :: exts l | _ :: l => exts l end.
(** A call takes effect between its first and its last step and sees a time in between. *)
Definition takes_effect (c0 : Z) (ls : list label) (lin : list item) (i : nat) (c : call) (o : output) (a b : nat) : Prop :=
  exists p tm up q, In (Op i c o p tm up) lin /\ (a < p < b)%nat /\ (a < q <= p)%nat /\ tm = clock_at c0 ls q.

(** ** Proofs *)
Definition home (p : place) : option nat :=
  match p with
  | Idle => None
  | Want t _ | GAge t _ | GStamp t _ _ | GErase t _ | GFind t _ | GQuery t _ | GDefault t _ | GStore t _ _ | GCopy t _
  | SSchema t _ _ | SCommand t _ _ _ | SStore t _ _ | RErase t _ | RCommand t _ | PErase t | VRead t _ | Leave t _ => Some t
  end.
Definition inside (p : place) : bool := match p with Idle | Want _ _ | VRead _ _ => false | _ => true end.
Lemma setf_same {A} (f : nat -> A) i x : setf f i x i = x.
Proof. unfold setf. rewrite Nat.eqb_refl. reflexivity. Qed.
Lemma setf_other {A} (f : nat -> A) i x j : j <> i -> setf f i x j = f j.
Proof. intros N. unfold setf. destruct (Nat.eqb_spec j i); [contradiction|reflexivity]. Qed.
Lemma runs_app s l1 l2 : runs s (l1 ++ l2) = bind (runs s l1) (fun s => runs s l2).
Proof.
  revert s. induction l1 as [|a l1 IH]; intros s; [reflexivity|]. cbn [app runs]. destruct (step s a); cbn [bind]; [apply IH|reflexivity..].
Qed.
Lemma clock_app ls : forall c0 ls' n, (n <= length ls)%nat -> clock_at c0 (ls ++ ls') n = clock_at c0 ls n.
Proof.
  induction ls as [|a ls IH]; intros c0 ls' n L; [cbn [length] in L; replace n with O by lia; destruct ls' as [|[] ls']; reflexivity|].
  destruct n as [|n]; [destruct a; reflexivity|]. cbn [length] in L. cbn [app clock_at]. destruct a; apply IH; lia.
Qed.
Lemma clock_last ls a : forall c0, clock_at c0 (ls ++ [a]) (length (ls ++ [a])) = clock_at c0 ls (length ls) + match a with LTick d => d | _ => 0 end.
Proof.
  induction ls as [|x ls IH]; intros c0; [destruct a; cbn; lia|]. cbn [app length clock_at]. destruct x; apply IH.
Qed.
Lemma replays_app t K m1 l1 m2 l2 m3 : replays t K m1 l1 m2 -> replays t K m2 l2 m3 -> replays t K m1 (l1 ++ l2) m3.
Proof. intros A B. induction A; cbn [app]; [exact B|econstructor; eauto|econstructor; eauto]. Qed.
Lemma positions_app a b : positions (a ++ b) = positions a ++ positions b.
Proof. induction a as [|[] a IH]; cbn [app positions]; [reflexivity|f_equal; exact IH|f_equal; exact IH]. Qed.
Lemma exts_app a b : exts (a ++ b) = exts a ++ exts b.
Proof. induction a as [|[] a IH]; cbn [app exts]; [reflexivity|exact IH|f_equal; exact IH]. Qed.
Lemma externals_app t a : forall n b, externals t n (a ++ b) = externals t n a ++ externals t (n + length a) b.
Proof.
  induction a as [|x a IH]; intros n b; [cbn [app externals length]; rewrite Nat.add_0_r; reflexivity|].
  cbn [app externals length]. rewrite <- Nat.add_succ_comm. destruct x; try (apply IH). destruct (_ =? _)%nat; cbn [app]; [f_equal|]; apply IH.
Qed.
Lemma in_positions i c o p tm up lin : In (Op i c o p tm up) lin -> In p (positions lin).
Proof. induction lin as [|[] lin IH]; intros H; [destruct H| |]; cbn [positions]; (destruct H as [H|H]; [|right; apply IH; exact H]); inversion H; left; reflexivity. Qed.
(** The call has not taken effect. *)
Definition before (p : place) : bool := match p with GDefault _ _ | GStore _ _ _ | GCopy _ _ | SStore _ _ _ | Leave _ _ => false | _ => true end.
(** What the history so far says about the state of the thread that holds the lock. *)
Definition agrees (c0 : Z) (ls : list label) (K : schema) (lin : list item) (ml : mem) (i : nat) (s : sys) (t : nat) : Prop :=
  let '(last, c, r) := ml in
  let (a, ca) := cur s i in
  let cache := tcache (tab s t) in
  let seen n := exists q, (a < q <= count s)%nat /\ n = clock_at c0 ls q in
  let effect o := takes_effect c0 ls lin i ca o a (count s) in
  match at_ s i with
  | GAge _ k => ca = CGet k /\ stamp s = last /\ cache = c
  | GStamp _ k n => ca = CGet k /\ stamp s = last /\ cache = c /\ seen n /\ 3 <= n - last
  | GErase _ k => ca = CGet k /\ seen (stamp s) /\ 3 <= stamp s - last
  | GFind _ k => ca = CGet k /\ exists n, seen n /\ checkCacheAge n last c = (stamp s, cache)
  | GQuery _ k => ca = CGet k /\ cfind cache k = None /\ exists n, seen n /\ checkCacheAge n last c = (stamp s, cache)
  | GDefault _ k => let v := match K k with Some (d, _) => Some d | None => None end in ca = CGet k /\ stamp s = last /\ c = cset cache k v /\ effect (OVal v)
  | GStore _ k v => ca = CGet k /\ stamp s = last /\ c = cset cache k v /\ effect (OVal v)
  | GCopy _ k => ca = CGet k /\ stamp s = last /\ cache = c /\ exists v, cfind cache k = Some v /\ effect (OVal v)
  | SSchema _ k v => ca = CSet k v /\ stamp s = last /\ cache = c
  | SCommand _ k v cmd => ca = CSet k v /\ stamp s = last /\ cache = c /\ cmd = set_cmd K k v
  | SStore _ k v => ca = CSet k v /\ stamp s = last /\ c = cset cache k (Some v) /\ effect (OBool true)
  | RErase _ k => ca = CRemove k /\ stamp s = last /\ cache = c
  | RCommand _ k => ca = CRemove k /\ stamp s = last /\ cache = cerase c k
  | PErase _ => ca = CPurge /\ stamp s = last
  | Leave _ o => (forall k, ca <> CValid k) /\ stamp s = last /\ cache = c /\ effect o
  | _ => False
  end.
Record inv (t : nat) (K : schema) (c0 : Z) (m0 : mem) (ls : list label) (s : sys) (lin : list item) (ml : mem) : Prop := Inv {
  i_count : count s = length ls;
  i_clock : clock s = clock_at c0 ls (length ls);
  i_schema : sch s t = K;
  i_home : forall i u, home (at_ s i) = Some u -> u = t;
  i_inside : forall i, inside (at_ s i) = true -> owner s t = Some i;
  i_owner : forall i, owner s t = Some i -> inside (at_ s i) = true;
  i_since : forall i, at_ s i <> Idle -> (fst (cur s i) < count s)%nat;
  i_valid : forall i k, (at_ s i = Want t (CValid k) \/ at_ s i = VRead t k) -> K k <> None;
  i_want : forall i u c, at_ s i = Want u c -> snd (cur s i) = c;
  i_read : forall i u k, at_ s i = VRead u k -> snd (cur s i) = CValid k;
  i_replay : replays t K m0 lin ml;
  i_rows : tdb (tab s t) = snd ml;
  i_idle : owner s t = None -> stamp s = fst (fst ml) /\ tcache (tab s t) = snd (fst ml);
  i_agree : forall i, owner s t = Some i -> agrees c0 ls K lin ml i s t;
  i_sorted : StronglySorted lt (positions lin) /\ Forall (fun p => (p < count s)%nat) (positions lin);
  i_exts : exts lin = externals t O ls;
  i_real : forall i c o p tm up, In (Op i c o p tm up) lin ->
     (exists f, In f (past s) /\ who f = i /\ what f = c /\ result f = o /\ (begun f < p < ended f)%nat) \/
     (at_ s i <> Idle /\ snd (cur s i) = c /\ (fst (cur s i) < p)%nat /\ match at_ s i with Leave _ o' => o' = o | GCopy _ k => exists v, cfind (tcache (tab s t)) k = Some v /\ o = OVal v | GStore _ _ v => o = OVal v
        | GDefault _ k => o = OVal (match K k with Some (d, _) => Some d | None => None end) | SStore _ _ _ => o = OBool true | _ => False end);
  i_serial : forall f, In f (past s) -> at_ s (who f) <> Idle -> (ended f < fst (cur s (who f)))%nat;
  i_once : forall i c o p tm up c' o' p' tm' up', In (Op i c o p tm up) lin -> In (Op i c' o' p' tm' up') lin ->
     (forall f, In f (past s) -> who f = i -> (begun f < p < ended f)%nat -> (begun f < p' < ended f)%nat -> p = p') /\
     (at_ s i <> Idle -> (fst (cur s i) < p)%nat -> (fst (cur s i) < p')%nat -> p = p');
  i_past : forall f, In f (past s) -> where_ f = t /\ (begun f < ended f < count s)%nat /\
     ((exists k, what f = CValid k) \/ takes_effect c0 ls lin (who f) (what f) (result f) (begun f) (ended f))
}.
Lemma effect_mono c0 ls a lin x i c o b b' n : takes_effect c0 ls lin i c o b n -> (n <= b')%nat -> (n <= length ls)%nat -> takes_effect c0 (ls ++ [a]) (lin ++ x) i c o b b'.
Proof.
  intros (p & tm & up & q & I & P & Q & E) L L2. exists p, tm, up, q. split; [apply in_or_app; left; exact I|]. split; [lia|]. split; [lia|]. rewrite clock_app by lia. exact E.
Qed.
Lemma agrees_mono c0 ls a K lin x last c r r' i s s' t : agrees c0 ls K lin (last, c, r) i s t -> count s = length ls ->
  at_ s' i = at_ s i -> cur s' i = cur s i -> stamp s' = stamp s -> tcache (tab s' t) = tcache (tab s t) -> count s' = S (count s) ->
  agrees c0 (ls ++ [a]) K (lin ++ x) (last, c, r') i s' t.
Proof.
  intros A L E1 E2 E3 E4 E5. unfold agrees in *. cbv zeta in *. rewrite E1, E2, E3, E4, E5. destruct (cur s i) as [b ca].
  assert (Se : forall n, (exists q, (b < q <= count s)%nat /\ n = clock_at c0 ls q) -> exists q, (b < q <= S (count s))%nat /\ n = clock_at c0 (ls ++ [a]) q).
  { intros n (q & Q & E). exists q. split; [lia|]. rewrite clock_app by lia. exact E. }
  assert (Ef : forall o, takes_effect c0 ls lin i ca o b (count s) -> takes_effect c0 (ls ++ [a]) (lin ++ x) i ca o b (S (count s))).
  { intros o H. apply (effect_mono c0 ls a lin x i ca o b _ (count s)); [exact H|lia|lia]. }
  destruct (at_ s i); try assumption.
  - destruct A as (A1 & A2 & A3 & A4 & A5). auto 10.
  - destruct A as (A1 & A2 & A3). auto 10.
  - destruct A as (A1 & n & A2 & A3). split; [exact A1|]. exists n. auto 10.
  - destruct A as (A1 & A0 & n & A2 & A3). split; [exact A1|]. split; [exact A0|]. exists n. auto 10.
  - destruct A as (A1 & A2 & A3 & A4). auto 10.
  - destruct A as (A1 & A2 & A3 & A4). auto 10.
  - destruct A as (A1 & A2 & A3 & v & A4 & A5). split; [exact A1|]. split; [exact A2|]. split; [exact A3|]. exists v. auto 10.
  - destruct A as (A1 & A2 & A3 & A4). auto 10.
  - destruct A as (A1 & A2 & A3 & A4). auto 10.
Qed.
Lemma past_mono t c0 ls a lin x n : forall f, (where_ f = t /\ (begun f < ended f < n)%nat /\
     ((exists k, what f = CValid k) \/ takes_effect c0 ls lin (who f) (what f) (result f) (begun f) (ended f))) -> n = length ls ->
  where_ f = t /\ (begun f < ended f < S n)%nat /\ ((exists k, what f = CValid k) \/ takes_effect c0 (ls ++ [a]) (lin ++ x) (who f) (what f) (result f) (begun f) (ended f)).
Proof.
  intros f (A & B & C) L. split; [exact A|]. split; [lia|]. destruct C as [C|C]; [left; exact C|right]. apply (effect_mono c0 ls a lin x _ _ _ _ _ (ended f)); [exact C|lia|lia].
Qed.
(** The thread that holds the lock goes on. *)
Lemma inv_inside t K c0 m0 ls s lin ml i up n' T' p' lin' ml' :
  inv t K c0 m0 ls s lin ml -> owner s t = Some i -> home p' = Some t -> inside p' = true ->
  (lin' = [] \/ before (at_ s i) = true /\ exists o tm u, lin' = [Op i (snd (cur s i)) o (count s) tm u]) -> replays t K ml lin' ml' -> tdb (T' t) = snd ml' ->
  let s' := goto (Sys (clock s) n' T' (sch s) (owner s) (at_ s) (cur s) (count s) (past s)) i p' in
  agrees c0 (ls ++ [LStep i up]) K (lin ++ lin') ml' i s' t ->
  (forall o p tm u, In (Op i (snd (cur s i)) o p tm u) (lin ++ lin') -> (fst (cur s i) < p)%nat ->
     (p = count s \/ match at_ s i with Leave _ o' => o' = o | GCopy _ k => exists v, cfind (tcache (tab s t)) k = Some v /\ o = OVal v | GStore _ _ v => o = OVal v
        | GDefault _ k => o = OVal (match K k with Some (d, _) => Some d | None => None end) | SStore _ _ _ => o = OBool true | _ => False end) ->
     match p' with Leave _ o' => o' = o | GCopy _ k => exists v, cfind (tcache (T' t)) k = Some v /\ o = OVal v | GStore _ _ v => o = OVal v
        | GDefault _ k => o = OVal (match K k with Some (d, _) => Some d | None => None end) | SStore _ _ _ => o = OBool true | _ => False end) ->
  inv t K c0 m0 (ls ++ [LStep i up]) s' (lin ++ lin') ml'.
Proof.
  intros I Ow Hp Ip Hl Rp Rr s' Ag Re. assert (Len : length (ls ++ [LStep i up]) = S (length ls)) by (rewrite app_length; cbn [length]; lia).
  destruct I. assert (In_i : inside (at_ s i) = true) by (apply i_owner0; exact Ow).
  assert (NI : at_ s i <> Idle) by (intros X; rewrite X in In_i; discriminate).
  constructor; subst s'; cbn [goto count clock sch owner at_ cur tab stamp past] in *.
  - rewrite Len, i_count0. reflexivity.
  - rewrite clock_last, i_clock0. lia.
  - exact i_schema0.
  - intros j u. unfold setf. destruct (Nat.eqb_spec j i) as [->|N]; [rewrite Hp; intros X; inversion X; reflexivity|apply i_home0].
  - intros j. unfold setf. destruct (Nat.eqb_spec j i) as [->|N]; [intros _; exact Ow|apply i_inside0].
  - intros j X. unfold setf. destruct (Nat.eqb_spec j i) as [->|N]; [exact Ip|]. apply i_owner0. exact X.
  - intros j. unfold setf. destruct (Nat.eqb_spec j i) as [->|N]; [intros _; specialize (i_since0 i NI); lia|intros X; specialize (i_since0 j X); lia].
  - intros j k. unfold setf. destruct (Nat.eqb_spec j i) as [->|N]; [intros [X|X]; rewrite X in Ip; discriminate|apply i_valid0].
  - intros j u c. unfold setf. destruct (Nat.eqb_spec j i) as [->|N]; [intros X; rewrite X in Ip; discriminate|apply i_want0].
  - intros j u c. unfold setf. destruct (Nat.eqb_spec j i) as [->|N]; [intros X; rewrite X in Ip; discriminate|apply i_read0].
  - apply (replays_app _ _ _ _ ml); assumption.
  - exact Rr.
  - intros X. rewrite X in Ow. discriminate.
  - intros j X. rewrite X in Ow. inversion Ow; subst j. exact Ag.
  - destruct i_sorted0 as [So Fo]. rewrite positions_app. destruct Hl as [->|(_ & o & tm & u & ->)]; cbn [positions].
    + rewrite app_nil_r. split; [exact So|]. eapply Forall_impl; [|exact Fo]. cbn. intros; lia.
    + split.
      * clear - So Fo. induction So as [|x l So IH Fx]; cbn [app]; [repeat constructor|]. inversion Fo; subst. constructor; [apply IH; assumption|]. apply Forall_app. split; [exact Fx|]. constructor; [assumption|constructor].
      * apply Forall_app. split; [eapply Forall_impl; [|exact Fo]; cbn; intros; lia|]. constructor; [lia|constructor].
  - rewrite exts_app, externals_app, i_exts0. cbn [externals]. destruct Hl as [->|(_ & o & tm & u & ->)]; reflexivity.
  - intros j c o p tm u H. destruct (Nat.eq_dec j i) as [->|N].
    + assert (Hc : (exists f, In f (past s) /\ who f = i /\ what f = c /\ result f = o /\ (begun f < p < ended f)%nat) \/
        (snd (cur s i) = c /\ (fst (cur s i) < p)%nat /\ (p = count s \/ match at_ s i with Leave _ o' => o' = o | GCopy _ k => exists v, cfind (tcache (tab s t)) k = Some v /\ o = OVal v | GStore _ _ v => o = OVal v
        | GDefault _ k => o = OVal (match K k with Some (d, _) => Some d | None => None end) | SStore _ _ _ => o = OBool true | _ => False end))).
      { apply in_app_or in H. destruct H as [H|H]; [destruct (i_real0 _ _ _ _ _ _ H) as [X|(X1 & X2 & X3 & X4)]; [left; exact X|right; auto]|].
        right. destruct Hl as [->|(_ & o' & tm' & u' & ->)]; [destruct H|]. destruct H as [H|[]]. inversion H; subst. split; [reflexivity|]. split; [exact (i_since0 i NI)|left; reflexivity]. }
      destruct Hc as [X|(X1 & X2 & X3)]; [left; exact X|right]. rewrite !setf_same. split; [intros X; rewrite X in Ip; discriminate|]. split; [exact X1|]. split; [exact X2|].
      subst c. exact (Re o p tm u H X2 X3).
    + rewrite !(setf_other _ i _ j N). assert (H' : In (Op j c o p tm u) lin).
      { apply in_app_or in H. destruct H as [H|H]; [exact H|]. destruct Hl as [->|(_ & o' & tm' & u' & ->)]; [destruct H|]. destruct H as [H|[]]. inversion H; subst. contradiction. }
      destruct (i_real0 _ _ _ _ _ _ H') as [X|(X1 & X2 & X3 & X4)]; [left; exact X|]. exfalso. apply N. assert (Xi : inside (at_ s j) = true) by (destruct (at_ s j); try contradiction; reflexivity).
      apply i_inside0 in Xi. rewrite Ow in Xi. inversion Xi. reflexivity.
  - intros f H. unfold setf. destruct (Nat.eqb_spec (who f) i) as [E|N]; [rewrite E; intros _; specialize (i_serial0 f H); rewrite E in i_serial0; exact (i_serial0 NI)|apply i_serial0; exact H].
  - assert (Ol : forall j c o p tm u, In (Op j c o p tm u) lin -> (p < count s)%nat).
    { intros j c o p tm u X. destruct i_sorted0 as [_ Fo]. rewrite Forall_forall in Fo. apply Fo. eapply in_positions. exact X. }
    assert (Ne : forall j c o p tm u, In (Op j c o p tm u) lin' -> j = i /\ p = count s /\ before (at_ s i) = true).
    { intros j c o p tm u X. destruct Hl as [->|(B & o' & tm' & u' & ->)]; [destruct X|]. destruct X as [X|[]]. inversion X; subst; auto. }
    assert (Pf : forall f, In f (past s) -> (ended f < count s)%nat) by (intros f X; apply i_past0 in X; lia).
    assert (Bf : before (at_ s i) = true -> forall c o p tm u, In (Op i c o p tm u) lin -> (fst (cur s i) < p)%nat -> False).
    { intros B c o p tm u X L. destruct (i_real0 _ _ _ _ _ _ X) as [(f & F1 & F2 & _ & _ & F3)|(_ & _ & _ & F)].
      - specialize (i_serial0 f F1). rewrite F2 in i_serial0. specialize (i_serial0 NI). lia.
      - destruct (at_ s i); try contradiction; discriminate. }
    intros j c o p tm u c' o' p2 tm' u' H1 H2. apply in_app_or in H1. apply in_app_or in H2. destruct H1 as [H1|H1]; destruct H2 as [H2|H2].
    + destruct (i_once0 _ _ _ _ _ _ _ _ _ _ _ H1 H2) as [A B]. split; [exact A|]. unfold setf. destruct (Nat.eqb_spec j i) as [->|N]; [intros _; exact (B NI)|exact B].
    + destruct (Ne _ _ _ _ _ _ H2) as (-> & -> & Bb). split; [intros f F1 F2 F3 F4; specialize (Pf f F1); lia|]. intros _ L1 L2. destruct (Bf Bb _ _ _ _ _ H1 L1).
    + destruct (Ne _ _ _ _ _ _ H1) as (-> & -> & Bb). split; [intros f F1 F2 F3 F4; specialize (Pf f F1); lia|]. intros _ L1 L2. destruct (Bf Bb _ _ _ _ _ H2 L2).
    + destruct (Ne _ _ _ _ _ _ H1) as (-> & -> & _). destruct (Ne _ _ _ _ _ _ H2) as (_ & -> & _). auto.
  - intros f H. rewrite i_count0 in *. apply past_mono; [apply i_past0; exact H|reflexivity].
Qed.
(** The clock, another process or a thread that does not hold the lock goes on. *)
Lemma inv_outside t K c0 m0 ls s lin ml a s' lin' ml' j0 :
  inv t K c0 m0 ls s lin ml -> sch s' t = sch s t -> stamp s' = stamp s -> tcache (tab s' t) = tcache (tab s t) -> owner s' t = owner s t -> count s' = S (count s) ->
  clock s' = clock s + match a with LTick d => d | _ => 0 end ->
  (lin' = [] /\ ml' = ml /\ tdb (tab s' t) = tdb (tab s t) \/ exists r, lin' = [Ext r (count s)] /\ ml' = (fst ml, r) /\ tdb (tab s' t) = r) -> exts lin' = externals t (count s) [a] ->
  (forall j, j <> j0 -> at_ s' j = at_ s j /\ cur s' j = cur s j) ->
  (at_ s' j0 = at_ s j0 /\ cur s' j0 = cur s j0 \/
   inside (at_ s j0) = false /\ inside (at_ s' j0) = false /\ (forall u, home (at_ s' j0) = Some u -> u = t) /\ (at_ s' j0 <> Idle -> (fst (cur s' j0) < count s')%nat) /\
   (forall k, (at_ s' j0 = Want t (CValid k) \/ at_ s' j0 = VRead t k) -> K k <> None) /\ (forall u c, at_ s' j0 = Want u c -> snd (cur s' j0) = c) /\
   (forall u k, at_ s' j0 = VRead u k -> snd (cur s' j0) = CValid k) /\
   (at_ s' j0 <> Idle -> cur s' j0 = cur s j0 /\ at_ s j0 <> Idle \/ fst (cur s' j0) = count s)) ->
  (past s' = past s \/ exists f k, past s' = past s ++ [f] /\ what f = CValid k /\ where_ f = t /\ (begun f < ended f < count s')%nat /\
     who f = j0 /\ begun f = fst (cur s j0) /\ at_ s j0 <> Idle /\ at_ s' j0 = Idle) ->
  inv t K c0 m0 (ls ++ [a]) s' (lin ++ lin') ml'.
Proof.
  intros I Es En Ec Eo Ek El Hl Hx Hj H0 Hp. assert (Len : length (ls ++ [a]) = S (length ls)) by (rewrite app_length; cbn [length]; lia). destruct I.
  assert (In_same : forall j, inside (at_ s' j) = true -> at_ s' j = at_ s j /\ cur s' j = cur s j).
  { intros j X. destruct (Nat.eq_dec j j0) as [->|N]; [|apply Hj; exact N]. destruct H0 as [H0|(_ & H0 & _)]; [exact H0|rewrite H0 in X; discriminate]. }
  assert (In_same2 : forall j, inside (at_ s j) = true -> at_ s' j = at_ s j /\ cur s' j = cur s j).
  { intros j X. destruct (Nat.eq_dec j j0) as [->|N]; [|apply Hj; exact N]. destruct H0 as [H0|(H0 & _)]; [exact H0|rewrite H0 in X; discriminate]. }
  assert (One : forall j (P : place -> nat * call -> Prop), P (at_ s j) (cur s j) -> (j = j0 -> inside (at_ s' j0) = false -> P (at_ s' j0) (cur s' j0)) -> P (at_ s' j) (cur s' j)).
  { intros j P A B. destruct (Nat.eq_dec j j0) as [->|N]; [|destruct (Hj j N) as [-> ->]; exact A]. destruct H0 as [[-> ->]|(_ & H0 & _)]; [exact A|exact (B eq_refl H0)]. }
  assert (Lin : forall i c o p tm u, In (Op i c o p tm u) (lin ++ lin') -> In (Op i c o p tm u) lin).
  { intros i c o p tm u H. apply in_app_or in H. destruct H as [H|H]; [exact H|]. destruct Hl as [(-> & _)|(r & -> & _)]; [destruct H|destruct H as [H|[]]; discriminate]. }
  constructor.
  - rewrite Ek, i_count0, Len. reflexivity.
  - rewrite clock_last, El, i_clock0. reflexivity.
  - rewrite Es. exact i_schema0.
  - intros j u. destruct (Nat.eq_dec j j0) as [->|N]; [|destruct (Hj j N) as [-> _]; apply i_home0]. destruct H0 as [[-> _]|(_ & _ & H0 & _)]; [apply i_home0|apply H0].
  - intros j X. rewrite Eo. destruct (In_same j X) as [E _]. rewrite E in X. apply i_inside0. exact X.
  - intros j X. rewrite Eo in X. specialize (i_owner0 j X). destruct (In_same2 j i_owner0) as [E _]. rewrite E. exact i_owner0.
  - intros j. destruct (Nat.eq_dec j j0) as [->|N].
    + destruct H0 as [[-> ->]|(_ & _ & _ & H0 & _)]; [|exact H0]. intros X. specialize (i_since0 _ X). lia.
    + destruct (Hj j N) as [-> ->]. intros X. specialize (i_since0 _ X). lia.
  - intros j k. destruct (Nat.eq_dec j j0) as [->|N]; [|destruct (Hj j N) as [-> _]; apply i_valid0]. destruct H0 as [[-> _]|(_ & _ & _ & _ & H0 & _)]; [apply i_valid0|apply H0].
  - intros j u c. destruct (Nat.eq_dec j j0) as [->|N]; [|destruct (Hj j N) as [-> ->]; apply i_want0]. destruct H0 as [[-> ->]|(_ & _ & _ & _ & _ & H0 & _)]; [apply i_want0|apply H0].
  - intros j u c. destruct (Nat.eq_dec j j0) as [->|N]; [|destruct (Hj j N) as [-> ->]; apply i_read0]. destruct H0 as [[-> ->]|(_ & _ & _ & _ & _ & _ & H0 & _)]; [apply i_read0|apply H0].
  - apply (replays_app _ _ _ _ ml); [exact i_replay0|]. destruct Hl as [(-> & -> & _)|(r & -> & -> & _)]; [constructor|]. destruct ml as [[last c] r0]. constructor. constructor.
  - destruct Hl as [(-> & -> & ->)|(r & -> & -> & ->)]; [exact i_rows0|reflexivity].
  - rewrite Eo, En, Ec. intros X. destruct (i_idle0 X) as [A B]. destruct Hl as [(-> & -> & _)|(r & -> & -> & _)]; [split; assumption|cbn [fst snd]; split; assumption].
  - intros j X. rewrite Eo in X. pose proof (i_owner0 j X) as Y. destruct (In_same2 j Y) as [E1 E2]. specialize (i_agree0 j X).
    destruct ml as [[last c] r0]. assert (M : exists r', ml' = (last, c, r')) by (destruct Hl as [(_ & -> & _)|(r & _ & -> & _)]; eexists; reflexivity). destruct M as [r' ->].
    apply (agrees_mono c0 ls a K lin lin' last c r0 r' j s s' t); assumption.
  - destruct i_sorted0 as [So Fo]. rewrite positions_app. destruct Hl as [(-> & _)|(r & -> & _)]; cbn [positions].
    + rewrite app_nil_r. split; [exact So|]. eapply Forall_impl; [|exact Fo]. cbn. intros; lia.
    + split.
      * clear - So Fo. induction So as [|x l So IH Fx]; cbn [app]; [repeat constructor|]. inversion Fo; subst. constructor; [apply IH; assumption|]. apply Forall_app. split; [exact Fx|]. constructor; [assumption|constructor].
      * apply Forall_app. split; [eapply Forall_impl; [|exact Fo]; cbn; intros; lia|]. constructor; [lia|constructor].
  - rewrite exts_app, externals_app, i_exts0, Hx, i_count0. reflexivity.
  - intros i c o p tm u H. apply Lin in H. specialize (i_real0 i c o p tm u H).
    assert (Past : forall f, In f (past s) -> In f (past s')) by (intros f X; destruct Hp as [->|(f' & k & -> & _)]; [exact X|apply in_or_app; left; exact X]).
    destruct i_real0 as [(f & X1 & X2)|(X1 & X2 & X3 & X4)]; [left; exists f; split; [apply Past; exact X1|exact X2]|right].
    assert (Xi : inside (at_ s i) = true) by (destruct (at_ s i); try contradiction; reflexivity). destruct (In_same2 i Xi) as [E1 E2]. rewrite E1, E2, Ec. auto.
  - intros f H NI. destruct (Nat.eq_dec (who f) j0) as [E|N].
    + rewrite E in *. destruct Hp as [Hp|(f' & k & Hp & _ & _ & _ & _ & _ & _ & Id)]; [|contradiction]. rewrite Hp in H.
      destruct H0 as [[E1 E2]|(_ & _ & _ & _ & _ & _ & _ & H0)].
      * rewrite E1 in NI. rewrite E2. specialize (i_serial0 f H). rewrite E in i_serial0. exact (i_serial0 NI).
      * destruct (H0 NI) as [[-> NJ]| ->]; [specialize (i_serial0 f H); rewrite E in i_serial0; exact (i_serial0 NJ)|]. apply i_past0 in H. lia.
    + destruct (Hj _ N) as [E1 E2]. rewrite E1 in NI. rewrite E2. destruct Hp as [Hp|(f' & k & Hp & _ & _ & _ & Wf & _)]; rewrite Hp in H; [apply i_serial0; assumption|].
      apply in_app_or in H. destruct H as [H|[<-|[]]]; [apply i_serial0; assumption|contradiction].
  - intros i c o p tm u c' o' p' tm' u' H1 H2. apply Lin in H1. apply Lin in H2. destruct (i_once0 _ _ _ _ _ _ _ _ _ _ _ H1 H2) as [A B]. split.
    + intros f F1 F2 F3 F4. destruct Hp as [Hp|(f' & k & Hp & _ & _ & _ & Wf & Bf & NJ & _)]; rewrite Hp in F1; [exact (A f F1 F2 F3 F4)|].
      apply in_app_or in F1. destruct F1 as [F1|[<-|[]]]; [exact (A f F1 F2 F3 F4)|]. rewrite Wf in F2. subst i. apply B; [exact NJ|lia|lia].
    + intros NI L1 L2. destruct (Nat.eq_dec i j0) as [->|N]; [|destruct (Hj i N) as [E1 E2]; rewrite E1 in NI; rewrite E2 in L1, L2; auto].
      destruct H0 as [[E1 E2]|(_ & _ & _ & _ & _ & _ & _ & H0)]; [rewrite E1 in NI; rewrite E2 in L1, L2; auto|].
      destruct (H0 NI) as [[E2 NJ]|E2]; rewrite E2 in L1, L2; [auto|]. destruct i_sorted0 as [_ Fo]. rewrite Forall_forall in Fo. apply in_positions, Fo in H1. lia.
  - intros f H. rewrite Ek, i_count0 in *. assert (Old : In f (past s) -> where_ f = t /\ (begun f < ended f < S (length ls))%nat /\
      ((exists k, what f = CValid k) \/ takes_effect c0 (ls ++ [a]) (lin ++ lin') (who f) (what f) (result f) (begun f) (ended f))).
    { intros X. apply past_mono; [apply i_past0; exact X|reflexivity]. }
    destruct Hp as [Hp|(f' & k & Hp & W1 & W2 & W3 & _)]; rewrite Hp in H; [exact (Old H)|]. apply in_app_or in H. destruct H as [H|[<-|[]]]; [exact (Old H)|].
    split; [exact W2|]. split; [exact W3|]. left. exists k. exact W1.
Qed.
Lemma inv_start t K c0 last0 T Ss : Ss t = K -> inv t K c0 (last0, tcache (T t), tdb (T t)) [] (start c0 last0 T Ss) [] (last0, tcache (T t), tdb (T t)).
Proof.
  intros E. constructor; cbn [start count clock sch at_ owner tab stamp past cur length fst snd positions exts]; try reflexivity; try discriminate; try assumption.
  - intros i X. contradiction.
  - intros i k [X|X]; discriminate.
  - constructor.
  - intros _. split; reflexivity.
  - split; constructor.
  - intros i c o p tm up [].
  - intros f [].
  - intros i c o p tm up c' o' p' tm' up' [].
  - intros f [].
Qed.
Lemma inv_acquire t K c0 m0 ls s lin ml i up p' :
  inv t K c0 m0 ls s lin ml -> owner s t = None -> home p' = Some t -> inside p' = true -> at_ s i <> Idle -> inside (at_ s i) = false ->
  match p' with GAge _ k => snd (cur s i) = CGet k | SSchema _ k v => snd (cur s i) = CSet k v | RErase _ k => snd (cur s i) = CRemove k | PErase _ => snd (cur s i) = CPurge | _ => False end ->
  inv t K c0 m0 (ls ++ [LStep i up]) (goto (put_owner s t (Some i)) i p') (lin ++ []) ml.
Proof.
  intros I Ow Hp Ip NI NIn Hc. assert (Len : length (ls ++ [LStep i up]) = S (length ls)) by (rewrite app_length; cbn [length]; lia). rewrite app_nil_r. destruct I.
  assert (NO : forall j, inside (at_ s j) = true -> False) by (intros j X; apply i_inside0 in X; rewrite Ow in X; discriminate).
  constructor; cbn [goto put_owner count clock sch owner at_ cur tab stamp past] in *.
  - rewrite Len, i_count0. reflexivity.
  - rewrite clock_last, i_clock0. lia.
  - exact i_schema0.
  - intros j u. unfold setf. destruct (Nat.eqb_spec j i) as [->|N]; [rewrite Hp; intros X; inversion X; reflexivity|apply i_home0].
  - intros j. rewrite setf_same. unfold setf. destruct (Nat.eqb_spec j i) as [->|N]; [reflexivity|intros X; destruct (NO j X)].
  - intros j. rewrite setf_same. intros X. inversion X; subst j. rewrite setf_same. exact Ip.
  - intros j. unfold setf. destruct (Nat.eqb_spec j i) as [->|N]; [intros _; specialize (i_since0 i NI); lia|intros X; specialize (i_since0 j X); lia].
  - intros j k. unfold setf. destruct (Nat.eqb_spec j i) as [->|N]; [intros [X|X]; rewrite X in Ip; discriminate|apply i_valid0].
  - intros j u c. unfold setf. destruct (Nat.eqb_spec j i) as [->|N]; [intros X; rewrite X in Ip; discriminate|apply i_want0].
  - intros j u c. unfold setf. destruct (Nat.eqb_spec j i) as [->|N]; [intros X; rewrite X in Ip; discriminate|apply i_read0].
  - exact i_replay0.
  - exact i_rows0.
  - rewrite setf_same. discriminate.
  - intros j. rewrite setf_same. intros X. inversion X; subst j. destruct (i_idle0 Ow) as [A B]. unfold agrees. destruct ml as [[last c] r]. cbn [fst snd goto put_owner at_ cur stamp tab count] in *. rewrite setf_same.
    destruct (cur s i) as [b ca]. cbn [snd] in Hc. destruct p'; try contradiction; auto.
  - destruct i_sorted0 as [So Fo]. split; [exact So|]. eapply Forall_impl; [|exact Fo]. cbn. intros; lia.
  - rewrite externals_app, i_exts0. cbn [externals]. rewrite app_nil_r. reflexivity.
  - intros j c o p tm u H. destruct (i_real0 _ _ _ _ _ _ H) as [X|(X1 & X2 & X3 & X4)]; [left; exact X|]. exfalso. apply (NO j). destruct (at_ s j); try contradiction; reflexivity.
  - intros f H. unfold setf. destruct (Nat.eqb_spec (who f) i) as [E|N]; [rewrite E; intros _; specialize (i_serial0 f H); rewrite E in i_serial0; exact (i_serial0 NI)|apply i_serial0; exact H].
  - intros j c o p tm u c' o' p2 tm' u' H1 H2. destruct (i_once0 _ _ _ _ _ _ _ _ _ _ _ H1 H2) as [A B]. split; [exact A|]. unfold setf. destruct (Nat.eqb_spec j i) as [->|N]; [intros _; exact (B NI)|exact B].
  - intros f H. rewrite i_count0 in *. pose proof (past_mono t c0 ls (LStep i up) lin [] (length ls) f (i_past0 f H) eq_refl) as P. rewrite app_nil_r in P. exact P.
Qed.
Lemma inv_leave t K c0 m0 ls s lin ml i up o :
  inv t K c0 m0 ls s lin ml -> at_ s i = Leave t o -> inv t K c0 m0 (ls ++ [LStep i up]) (goto (put_owner (finish s i t o) t None) i Idle) (lin ++ []) ml.
Proof.
  intros I At. assert (Len : length (ls ++ [LStep i up]) = S (length ls)) by (rewrite app_length; cbn [length]; lia). destruct I.
  assert (Ow : owner s t = Some i) by (apply i_inside0; rewrite At; reflexivity).
  pose proof (i_agree0 i Ow) as Ag. unfold agrees in Ag. rewrite At in Ag. destruct ml as [[last c] r]. destruct (cur s i) as [b ca] eqn:Ec. cbv zeta in Ag. destruct Ag as (NV & A1 & A2 & A3).
  assert (Sb : (b < count s)%nat). { specialize (i_since0 i). rewrite At, Ec in i_since0. apply i_since0. discriminate. }
  constructor; cbn [goto put_owner finish count clock sch owner at_ cur tab stamp past fst snd] in *.
  - rewrite Len, i_count0. reflexivity.
  - rewrite clock_last, i_clock0. lia.
  - exact i_schema0.
  - intros j u. unfold setf. destruct (Nat.eqb_spec j i) as [->|N]; [discriminate|apply i_home0].
  - intros j. rewrite setf_same. unfold setf. destruct (Nat.eqb_spec j i) as [->|N]; [discriminate|intros X]. apply i_inside0 in X. rewrite Ow in X. inversion X. congruence.
  - intros j. rewrite setf_same. discriminate.
  - intros j. unfold setf. destruct (Nat.eqb_spec j i) as [->|N]; [intros X; contradiction|intros X; specialize (i_since0 j X); lia].
  - intros j k. unfold setf. destruct (Nat.eqb_spec j i) as [->|N]; [intros [X|X]; discriminate|apply i_valid0].
  - intros j u d. unfold setf. destruct (Nat.eqb_spec j i) as [->|N]; [discriminate|apply i_want0].
  - intros j u d. unfold setf. destruct (Nat.eqb_spec j i) as [->|N]; [discriminate|apply i_read0].
  - rewrite app_nil_r. exact i_replay0.
  - exact i_rows0.
  - intros _. auto.
  - intros j. rewrite setf_same. discriminate.
  - rewrite app_nil_r. destruct i_sorted0 as [So Fo]. split; [exact So|]. eapply Forall_impl; [|exact Fo]. cbn. intros; lia.
  - rewrite app_nil_r, externals_app, i_exts0. cbn [externals]. rewrite app_nil_r. reflexivity.
  - intros j d o' p tm u H. rewrite app_nil_r in H. destruct (i_real0 _ _ _ _ _ _ H) as [(f & X1 & X2)|(X1 & X2 & X3 & X4)]; [left; exists f; split; [apply in_or_app; left; exact X1|exact X2]|].
    destruct (Nat.eq_dec j i) as [->|N].
    + left. exists (Finished i t ca o b (count s)). rewrite At in X4. rewrite Ec in X2, X3. cbn [fst snd] in X2, X3. subst. rewrite Ec. cbn [fst snd]. split; [apply in_or_app; right; left; reflexivity|].
      cbn [who what result begun ended]. repeat (split; [reflexivity|]). split; [exact X3|]. destruct i_sorted0 as [_ Fo]. rewrite Forall_forall in Fo. apply Fo. eapply in_positions. exact H.
    + exfalso. apply N. assert (Xi : inside (at_ s j) = true) by (destruct (at_ s j); try contradiction; reflexivity). apply i_inside0 in Xi. rewrite Ow in Xi. inversion Xi. reflexivity.
  - intros f H. unfold setf. destruct (Nat.eqb_spec (who f) i) as [E|N]; [intros X; contradiction|]. apply in_app_or in H. destruct H as [H|[<-|[]]]; [apply i_serial0; exact H|cbn [who] in N; contradiction].
  - rewrite app_nil_r. intros j d o' p tm u d' o'' p' tm' u' H1 H2. destruct (i_once0 _ _ _ _ _ _ _ _ _ _ _ H1 H2) as [A B]. split.
    + intros f F1 F2 F3 F4. apply in_app_or in F1. destruct F1 as [F1|[<-|[]]]; [exact (A f F1 F2 F3 F4)|]. cbn [who begun ended] in *. subst j. apply B; [rewrite At; discriminate|lia|lia].
    + unfold setf. destruct (Nat.eqb_spec j i) as [->|N]; [intros X; contradiction|exact B].
  - intros f H. rewrite Ec in H. cbn [fst snd] in H. apply in_app_or in H. rewrite i_count0 in *. destruct H as [H|[<-|[]]].
    + apply past_mono; [apply i_past0; exact H|reflexivity].
    + cbn [where_ begun ended what who result]. split; [reflexivity|]. split; [lia|]. right. apply (effect_mono c0 ls _ lin [] i ca o b _ (length ls)); [exact A3|lia|lia].
Qed.
Lemma inv_step t K c0 m0 ls s lin ml a s' : inv t K c0 m0 ls s lin ml -> uses t K a -> step s a = Ok s' -> exists lin' ml', inv t K c0 m0 (ls ++ [a]) s' (lin ++ lin') ml'.
Proof.
  intros I U H. destruct a as [i t' c|i up|d|t' r].
  - destruct U as [-> U]. cbn [step] in H. destruct (at_ s i) eqn:At; try discriminate. inversion H; subst. exists [], ml.
    apply (inv_outside t K c0 m0 ls s lin ml _ _ [] ml i); cbn [sch stamp tab owner count clock at_ cur past]; auto; try lia; try reflexivity.
    + intros j N. rewrite !(setf_other _ i _ j N). auto.
    + right. rewrite At, !setf_same. cbn [fst snd inside home]. split; [reflexivity|]. split; [reflexivity|]. split; [intros u X; inversion X; reflexivity|]. split; [lia|].
      split; [intros k [X|X]; inversion X; subst; exact U|]. split; [intros u d X; inversion X; reflexivity|]. split; [discriminate|]. intros _. right. reflexivity.
  - cbn [step] in H. unfold micro in H. pose proof I as I0. destruct I0.
    assert (Hm : forall u, home (at_ s i) = Some u -> u = t) by (intros u; apply i_home0).
    assert (Ow : inside (at_ s i) = true -> owner s t = Some i) by (apply i_inside0).
    assert (Sb : at_ s i <> Idle -> (fst (cur s i) < count s)%nat) by (apply i_since0).
    pose proof (i_agree0 i) as Ag. pose proof i_rows0 as Ro. assert (ck : clock s = clock_at c0 ls (count s)) by (rewrite i_count0; exact i_clock0). pose proof i_count0 as Cn. pose proof i_schema0 as Sc.
    pose proof (i_valid0 i) as Va. pose proof (i_want0 i) as Wa. pose proof (i_read0 i) as Rd.
    clear i_count0 i_clock0 i_schema0 i_home0 i_inside0 i_owner0 i_since0 i_valid0 i_want0 i_read0 i_replay0 i_rows0 i_idle0 i_agree0 i_sorted0 i_exts0 i_real0 i_past0.
    assert (Ck : forall q x, (q <= count s)%nat -> clock_at c0 (ls ++ [x]) q = clock_at c0 ls q) by (intros q x L; apply clock_app; lia).
    assert (Ci : forall x, In x lin -> True) by auto. clear Ci.
    unfold agrees in Ag. destruct ml as [[last c] r]. cbn [snd fst] in *. destruct (cur s i) as [b ca] eqn:Ec. cbn [fst snd] in *. cbv zeta in Ag.
    assert (Eff : forall o x l, takes_effect c0 ls lin i ca o b (count s) -> takes_effect c0 (ls ++ [x]) (lin ++ l) i ca o b (S (count s))).
    { intros o x l E. apply (effect_mono c0 ls x lin l i ca o b _ (count s)); [exact E|lia|lia]. }
    assert (New : forall o tm u x, (b < count s)%nat -> (exists q, (b < q <= count s)%nat /\ tm = clock_at c0 ls q) ->
      takes_effect c0 (ls ++ [x]) (lin ++ [Op i ca o (count s) tm u]) i ca o b (S (count s))).
    { intros o tm u x L (q & Q & E). exists (count s), tm, u, q. split; [apply in_or_app; right; left; reflexivity|]. split; [lia|]. split; [lia|]. rewrite Ck by lia. exact E. }
    assert (Fresh : forall o p tm u, In (Op i ca o p tm u) lin -> (p < count s)%nat).
    { intros o p tm u X. destruct (i_sorted _ _ _ _ _ _ _ _ I) as [_ Fo]. rewrite Forall_forall in Fo. apply Fo. eapply in_positions. exact X. }
    assert (NoNew : forall (A : Prop) o p tm u, In (Op i ca o p tm u) (lin ++ []) -> p = count s \/ False -> A).
    { intros A o p tm u X [->|[]]. rewrite app_nil_r in X. apply Fresh in X. lia. }
    destruct (at_ s i) as [|u d|u k|u k n|u k|u k|u k|u k|u k v|u k|u k v|u k v cmd|u k v|u k|u k|u|u k|u o] eqn:At; try discriminate;
    assert (u = t) by (apply Hm; reflexivity); subst u; cbn [inside] in Ow; try specialize (Ow eq_refl); try specialize (Ag Ow); try specialize (Sb ltac:(discriminate)).
    + (* Want *)
      specialize (Wa t d eq_refl).
      assert (Acq : forall p', home p' = Some t -> inside p' = true -> match p' with GAge _ k => ca = CGet k | SSchema _ k v => ca = CSet k v | RErase _ k => ca = CRemove k | PErase _ => ca = CPurge | _ => False end ->
        match owner s t with Some _ => Diverge | None => Ok (goto (put_owner s t (Some i)) i p') end = Ok s' -> exists lin' ml', inv t K c0 m0 (ls ++ [LStep i up]) s' (lin ++ lin') ml').
      { intros p' P1 P2 P3 E. destruct (owner s t) eqn:On; [discriminate|]. inversion E; subst s'. exists [], (last, c, r).
        apply inv_acquire; [exact I|exact On|exact P1|exact P2|rewrite At; discriminate|rewrite At; reflexivity|rewrite Ec; exact P3]. }
      destruct d as [k|k v|k| |k]; try (eapply Acq; [| | |exact H]; [reflexivity|reflexivity|exact Wa]).
      inversion H; subst s'. exists [], (last, c, r). apply (inv_outside t K c0 m0 ls s lin (last, c, r) _ _ [] _ i); cbn [goto sch stamp tab owner count clock at_ cur past]; auto; try lia; try reflexivity.
      * intros j N. rewrite !(setf_other _ i _ j N). auto.
      * right. rewrite At, !setf_same, Ec. cbn [fst snd inside home]. split; [reflexivity|]. split; [reflexivity|]. split; [intros u X; inversion X; reflexivity|]. split; [lia|].
        split; [intros k' [X|X]; inversion X; subst; apply Va; left; reflexivity|]. split; [discriminate|]. split; [intros u k' X; inversion X; subst; reflexivity|]. intros _. left. split; [reflexivity|discriminate].
    + (* GAge *)
      destruct Ag as (-> & <- & <-). inversion H; subst s'. exists [], (stamp s, tcache (tab s t), r).
      apply (inv_inside t K c0 m0 ls s lin (stamp s, tcache (tab s t), r) i up (stamp s) (tab s) (if clock s - stamp s <? 3 then GFind t k else GStamp t k (clock s)) []); try assumption; try (left; reflexivity); try constructor;
      try (destruct (clock s - stamp s <? 3); reflexivity).
      * unfold agrees. cbn [goto at_ cur stamp tab count tcache]. rewrite setf_same, Ec. destruct (Z.ltb_spec (clock s - stamp s) 3) as [L|L].
        -- split; [reflexivity|]. exists (clock s). split; [exists (count s); split; [lia|rewrite Ck by lia; exact ck]|]. unfold checkCacheAge. replace (clock s - stamp s <? 3) with true by lia. reflexivity.
        -- split; [reflexivity|]. split; [reflexivity|]. split; [reflexivity|]. split; [exists (count s); split; [lia|rewrite Ck by lia; exact ck]|lia].
      * rewrite Ec, At. cbn [fst snd]. intros o p tm u X _ Y. exact (NoNew _ o p tm u X Y).
    + (* GStamp *)
      destruct Ag as (-> & <- & <- & Se & L). inversion H; subst s'. exists [], (stamp s, tcache (tab s t), r).
      apply (inv_inside t K c0 m0 ls s lin (stamp s, tcache (tab s t), r) i up n (tab s) (GErase t k) []); try assumption; try (left; reflexivity); try constructor; try reflexivity.
      * unfold agrees. cbn [goto at_ cur stamp tab count tcache]. rewrite setf_same, Ec. destruct Se as (q & Q & E). split; [reflexivity|]. split; [exists q; split; [lia|rewrite Ck by lia; exact E]|exact L].
      * rewrite Ec, At. cbn [fst snd]. intros o p tm u X _ Y. exact (NoNew _ o p tm u X Y).
    + (* GErase *)
      destruct Ag as (-> & Se & L). destruct (tcache (tab s t)) as [|e ct] eqn:Et; inversion H; subst s'; exists [], (last, c, r).
      * apply (inv_inside t K c0 m0 ls s lin (last, c, r) i up (stamp s) (tab s) (GFind t k) []); try assumption; try (left; reflexivity); try constructor; try reflexivity.
        -- unfold agrees. cbn [goto at_ cur stamp tab count tcache]. rewrite setf_same, Ec. destruct Se as (q & Q & E). split; [reflexivity|]. exists (stamp s). split; [exists q; split; [lia|rewrite Ck by lia; exact E]|].
           unfold checkCacheAge. replace (stamp s - last <? 3) with false by lia. rewrite Et. reflexivity.
        -- rewrite Ec, At. cbn [fst snd]. intros o p tm u X _ Y. exact (NoNew _ o p tm u X Y).
      * apply (inv_inside t K c0 m0 ls s lin (last, c, r) i up (stamp s) (setf (tab s) t (CTable ct (tdb (tab s t)))) (GErase t k) []); try assumption; try (left; reflexivity); try constructor; try reflexivity.
        -- rewrite setf_same. exact Ro.
        -- unfold agrees. cbn [goto at_ cur stamp tab count tcache]. rewrite setf_same, Ec. destruct Se as (q & Q & E). split; [reflexivity|]. split; [exists q; split; [lia|rewrite Ck by lia; exact E]|exact L].
        -- rewrite Ec, At. cbn [fst snd]. intros o p tm u X _ Y. exact (NoNew _ o p tm u X Y).
    + (* GFind *)
      destruct Ag as (-> & n & Se & E). destruct (cfind (tcache (tab s t)) k) as [v|] eqn:Ef.
      * (* takes effect here *)
        set (ml' := (stamp s, tcache (tab s t), r)). exists [Op i (CGet k) (OVal v) (count s) n up], ml'.
        assert (Rp : replays t K (last, c, r) [Op i (CGet k) (OVal v) (count s) n up] ml').
        { eapply ROp; [reflexivity| |].
          - cbn [cstep now lastPurge tabs tcache tdb]. unfold lookup. rewrite E, Ef. reflexivity.
          - unfold set_tab. cbn [lastPurge tabs tcache tdb]. rewrite Nat.eqb_refl. cbn [tcache tdb]. constructor. }
        assert (Re : forall o p tm u, In (Op i (CGet k) o p tm u) (lin ++ [Op i (CGet k) (OVal v) (count s) n up]) -> p = count s \/ False -> o = OVal v).
        { intros o p tm u X [->|[]]. apply in_app_or in X. destruct X as [X|[X|[]]]; [apply Fresh in X; lia|inversion X; reflexivity]. }
        destruct v as [v|]; inversion H; subst s'.
        -- apply (inv_inside t K c0 m0 ls s lin (last, c, r) i up (stamp s) (tab s) (GCopy t k) [Op i (CGet k) (OVal (Some v)) (count s) n up] ml'); try assumption; try reflexivity.
           ++ right. rewrite At, Ec. cbn [snd]. split; [reflexivity|]. eexists _, _, _. reflexivity.
           ++ unfold agrees, ml'. cbn [goto at_ cur stamp tab count tcache]. rewrite setf_same, Ec. cbv zeta. split; [reflexivity|]. split; [reflexivity|]. split; [reflexivity|]. exists (Some v). split; [exact Ef|]. apply New; [exact Sb|exact Se].
           ++ rewrite Ec, At. cbn [fst snd]. intros o p tm u X _ Y. exists (Some v). split; [exact Ef|exact (Re o p tm u X Y)].
        -- apply (inv_inside t K c0 m0 ls s lin (last, c, r) i up (stamp s) (tab s) (Leave t (OVal None)) [Op i (CGet k) (OVal None) (count s) n up] ml'); try assumption; try reflexivity.
           ++ right. rewrite At, Ec. cbn [snd]. split; [reflexivity|]. eexists _, _, _. reflexivity.
           ++ unfold agrees, ml'. cbn [goto at_ cur stamp tab count tcache]. rewrite setf_same, Ec. cbv zeta. split; [discriminate|]. split; [reflexivity|]. split; [reflexivity|]. apply New; [exact Sb|exact Se].
           ++ rewrite Ec, At. cbn [fst snd]. intros o p tm u X _ Y. symmetry. exact (Re o p tm u X Y).
      * inversion H; subst s'. exists [], (last, c, r).
        apply (inv_inside t K c0 m0 ls s lin (last, c, r) i up (stamp s) (tab s) (GQuery t k) []); try assumption; try (left; reflexivity); try constructor; try reflexivity.
        -- unfold agrees. cbn [goto at_ cur stamp tab count tcache]. rewrite setf_same, Ec. cbv zeta. destruct Se as (q & Q & Eq). split; [reflexivity|]. split; [exact Ef|]. exists n. split; [exists q; split; [lia|rewrite Ck by lia; exact Eq]|exact E].
        -- rewrite Ec, At. cbn [fst snd]. intros o p tm u X _ Y. exact (NoNew _ o p tm u X Y).
    + (* GQuery *)
      destruct Ag as (-> & Ef & n & Se & E). rewrite Ro in H.
      set (v := match snd (single_lookup config_table up r k) with Some v => Some v | None => match K k with Some (d, _) => Some d | None => None end end).
      set (ml' := (stamp s, cset (tcache (tab s t)) k v, r)). exists [Op i (CGet k) (OVal v) (count s) n up], ml'.
      assert (Rp : replays t K (last, c, r) [Op i (CGet k) (OVal v) (count s) n up] ml').
      { eapply ROp; [reflexivity| |].
        - cbn [cstep now lastPurge tabs tcache tdb]. unfold lookup. rewrite E, Ef. fold v. reflexivity.
        - unfold set_tab. cbn [lastPurge tabs tcache tdb]. rewrite Nat.eqb_refl. cbn [tcache tdb]. constructor. }
      assert (Re : forall o p tm u, In (Op i (CGet k) o p tm u) (lin ++ [Op i (CGet k) (OVal v) (count s) n up]) -> p = count s \/ False -> o = OVal v).
      { intros o p tm u X [->|[]]. apply in_app_or in X. destruct X as [X|[X|[]]]; [apply Fresh in X; lia|inversion X; reflexivity]. }
      inversion H; subst s'. set (p' := match snd (single_lookup config_table up r k) with Some v => GStore t k (Some v) | None => GDefault t k end).
      apply (inv_inside t K c0 m0 ls s lin (last, c, r) i up (stamp s) (tab s) p' [Op i (CGet k) (OVal v) (count s) n up] ml'); try assumption;
      try (unfold p'; destruct (snd (single_lookup config_table up r k)); reflexivity).
      * right. rewrite At, Ec. cbn [snd]. split; [reflexivity|]. eexists _, _, _. reflexivity.
      * unfold agrees, ml', p'. cbn [goto at_ cur stamp tab count tcache]. rewrite setf_same, Ec. cbv zeta. unfold v in *. destruct (snd (single_lookup config_table up r k)) as [x|].
        -- split; [reflexivity|]. split; [reflexivity|]. split; [reflexivity|]. apply New; [exact Sb|exact Se].
        -- split; [reflexivity|]. split; [reflexivity|]. split; [reflexivity|]. apply New; [exact Sb|exact Se].
      * rewrite Ec, At. cbn [fst snd]. intros o p tm u X _ Y. pose proof (Re o p tm u X Y) as ->. unfold p', v. destruct (snd (single_lookup config_table up r k)); reflexivity.
    + (* GDefault *)
      destruct Ag as (-> & <- & -> & Ef). rewrite Sc in H. inversion H; subst s'. exists [], (stamp s, cset (tcache (tab s t)) k (match K k with Some (d, _) => Some d | None => None end), r).
      apply (inv_inside t K c0 m0 ls s lin _ i up (stamp s) (tab s) (GStore t k (match K k with Some (d, _) => Some d | None => None end)) [] _ I Ow); try assumption; try (left; reflexivity); try apply RNil; try reflexivity.
      * unfold agrees. cbn [goto at_ cur stamp tab count tcache]. rewrite setf_same, Ec. cbv zeta. split; [reflexivity|]. split; [reflexivity|]. split; [reflexivity|]. apply Eff. exact Ef.
      * rewrite Ec, At. cbn [fst snd]. intros o p tm u X _ [Y|Y]; [rewrite app_nil_r in X; apply Fresh in X; lia|exact Y].
    + (* GStore *)
      destruct Ag as (-> & <- & -> & Ef). inversion H; subst s'. exists [], (stamp s, cset (tcache (tab s t)) k v, r).
      apply (inv_inside t K c0 m0 ls s lin _ i up (stamp s) (setf (tab s) t (CTable (cset (tcache (tab s t)) k v) (tdb (tab s t)))) (match v with Some _ => GCopy t k | None => Leave t (OVal None) end) [] _ I Ow); try assumption; try (left; reflexivity); try apply RNil; try (destruct v; reflexivity).
      * rewrite setf_same. exact Ro.
      * unfold agrees. cbn [goto at_ cur stamp tab count]. rewrite !setf_same, Ec. cbv zeta. cbn [tcache]. destruct v as [v|].
        -- split; [reflexivity|]. split; [reflexivity|]. split; [reflexivity|]. exists (Some v). split; [rewrite cfind_cset, weqb_refl; reflexivity|]. apply Eff. exact Ef.
        -- split; [discriminate|]. split; [reflexivity|]. split; [reflexivity|]. apply Eff. exact Ef.
      * rewrite Ec, At. cbn [fst snd]. rewrite setf_same. cbn [tcache]. intros o p tm u X _ [Y|Y]; [rewrite app_nil_r in X; apply Fresh in X; lia|]. subst o. destruct v as [v|]; [exists (Some v); split; [rewrite cfind_cset, weqb_refl; reflexivity|reflexivity]|reflexivity].
    + (* GCopy *)
      destruct Ag as (-> & <- & <- & v & Ef & Et). rewrite Ef in H. inversion H; subst s'. exists [], (stamp s, tcache (tab s t), r).
      apply (inv_inside t K c0 m0 ls s lin _ i up (stamp s) (tab s) (Leave t (OVal v)) [] _ I Ow); try assumption; try (left; reflexivity); try apply RNil; try reflexivity.
      * unfold agrees. cbn [goto at_ cur stamp tab count tcache]. rewrite !setf_same, Ec. cbv zeta. split; [discriminate|]. split; [reflexivity|]. split; [reflexivity|]. apply Eff. exact Et.
      * rewrite Ec, At. cbn [fst snd]. intros o p tm u X _ [Y|(v' & Y & ->)]; [rewrite app_nil_r in X; apply Fresh in X; lia|]. rewrite Ef in Y. inversion Y. reflexivity.
    + (* SSchema *)
      destruct Ag as (-> & <- & <-). rewrite Sc in H. inversion H; subst s'. exists [], (stamp s, tcache (tab s t), r).
      apply (inv_inside t K c0 m0 ls s lin _ i up (stamp s) (tab s) (SCommand t k v (set_cmd K k v)) [] _ I Ow); try assumption; try (left; reflexivity); try apply RNil; try reflexivity.
      * unfold agrees. cbn [goto at_ cur stamp tab count tcache]. rewrite !setf_same, Ec. cbv zeta. auto.
      * rewrite Ec, At. cbn [fst snd]. intros o p tm u X _ Y. exact (NoNew _ o p tm u X Y).
    + (* SCommand *)
      destruct Ag as (-> & <- & <- & ->). rewrite Ro in H. destruct (command config_table up r (set_cmd K k v)) as [success r'] eqn:Eq. inversion H; subst s'.
      set (ml' := (stamp s, if success then cset (tcache (tab s t)) k (Some v) else tcache (tab s t), r')). exists [Op i (CSet k v) (OBool success) (count s) (clock s) up], ml'.
      assert (Rp : replays t K (stamp s, tcache (tab s t), r) [Op i (CSet k v) (OBool success) (count s) (clock s) up] ml').
      { eapply ROp; [reflexivity| |].
        - cbn [cstep now lastPurge tabs tcache tdb]. unfold set_. rewrite Eq. reflexivity.
        - unfold set_tab. cbn [lastPurge tabs tcache tdb]. rewrite Nat.eqb_refl. cbn [tcache tdb]. constructor. }
      assert (Re : forall o p tm u, In (Op i (CSet k v) o p tm u) (lin ++ [Op i (CSet k v) (OBool success) (count s) (clock s) up]) -> p = count s \/ False -> o = OBool success).
      { intros o p tm u X [->|[]]. apply in_app_or in X. destruct X as [X|[X|[]]]; [apply Fresh in X; lia|inversion X; reflexivity]. }
      assert (Se : exists q, (b < q <= count s)%nat /\ clock s = clock_at c0 ls q) by (exists (count s); split; [lia|exact ck]).
      apply (inv_inside t K c0 m0 ls s lin _ i up (stamp s) (setf (tab s) t (CTable (tcache (tab s t)) r')) (if success then SStore t k v else Leave t (OBool false)) [Op i (CSet k v) (OBool success) (count s) (clock s) up] ml' I Ow); try assumption; try (destruct success; reflexivity).
      * right. rewrite At, Ec. cbn [snd]. split; [reflexivity|]. eexists _, _, _. reflexivity.
      * rewrite setf_same. reflexivity.
      * unfold agrees, ml'. cbn [goto at_ cur stamp tab count]. rewrite !setf_same, Ec. cbv zeta. cbn [tcache]. destruct success.
        -- split; [reflexivity|]. split; [reflexivity|]. split; [reflexivity|]. apply New; [exact Sb|exact Se].
        -- split; [discriminate|]. split; [reflexivity|]. split; [reflexivity|]. apply New; [exact Sb|exact Se].
      * rewrite Ec, At. cbn [fst snd]. intros o p tm u X _ Y. pose proof (Re o p tm u X Y) as ->. destruct success; reflexivity.
    + (* SStore *)
      destruct Ag as (-> & <- & -> & Ef). inversion H; subst s'. exists [], (stamp s, cset (tcache (tab s t)) k (Some v), r).
      apply (inv_inside t K c0 m0 ls s lin _ i up (stamp s) (setf (tab s) t (CTable (cset (tcache (tab s t)) k (Some v)) (tdb (tab s t)))) (Leave t (OBool true)) [] _ I Ow); try assumption; try (left; reflexivity); try apply RNil; try reflexivity.
      * rewrite setf_same. exact Ro.
      * unfold agrees. cbn [goto at_ cur stamp tab count]. rewrite !setf_same, Ec. cbv zeta. cbn [tcache]. split; [discriminate|]. split; [reflexivity|]. split; [reflexivity|]. apply Eff. exact Ef.
      * rewrite Ec, At. cbn [fst snd]. intros o p tm u X _ [Y|Y]; [rewrite app_nil_r in X; apply Fresh in X; lia|]. symmetry. exact Y.
    + (* RErase *)
      destruct Ag as (-> & <- & <-). inversion H; subst s'. exists [], (stamp s, tcache (tab s t), r).
      apply (inv_inside t K c0 m0 ls s lin _ i up (stamp s) (setf (tab s) t (CTable (cerase (tcache (tab s t)) k) (tdb (tab s t)))) (RCommand t k) [] _ I Ow); try assumption; try (left; reflexivity); try apply RNil; try reflexivity.
      * rewrite setf_same. exact Ro.
      * unfold agrees. cbn [goto at_ cur stamp tab count]. rewrite !setf_same, Ec. cbv zeta. cbn [tcache]. auto.
      * rewrite Ec, At. cbn [fst snd]. intros o p tm u X _ Y. exact (NoNew _ o p tm u X Y).
    + (* RCommand *)
      destruct Ag as (-> & <- & Eca). rewrite Ro in H. destruct (command config_table up r (remove_cmd k)) as [success r'] eqn:Eq. inversion H; subst s'.
      set (ml' := (stamp s, cerase c k, r')). exists [Op i (CRemove k) (OBool success) (count s) (clock s) up], ml'.
      assert (Rp : replays t K (stamp s, c, r) [Op i (CRemove k) (OBool success) (count s) (clock s) up] ml').
      { eapply ROp; [reflexivity| |].
        - cbn [cstep now lastPurge tabs tcache tdb]. unfold remove_. rewrite Eq. reflexivity.
        - unfold set_tab. cbn [lastPurge tabs tcache tdb]. rewrite Nat.eqb_refl. cbn [tcache tdb]. constructor. }
      assert (Se : exists q, (b < q <= count s)%nat /\ clock s = clock_at c0 ls q) by (exists (count s); split; [lia|exact ck]).
      apply (inv_inside t K c0 m0 ls s lin _ i up (stamp s) (setf (tab s) t (CTable (tcache (tab s t)) r')) (Leave t (OBool success)) [Op i (CRemove k) (OBool success) (count s) (clock s) up] ml' I Ow); try assumption; try reflexivity.
      * right. rewrite At, Ec. cbn [snd]. split; [reflexivity|]. eexists _, _, _. reflexivity.
      * rewrite setf_same. reflexivity.
      * unfold agrees, ml'. cbn [goto at_ cur stamp tab count]. rewrite !setf_same, Ec. cbv zeta. cbn [tcache]. split; [discriminate|]. split; [reflexivity|]. split; [exact Eca|]. apply New; [exact Sb|exact Se].
      * rewrite Ec, At. cbn [fst snd]. intros o p tm u X _ [->|[]]. apply in_app_or in X. destruct X as [X|[X|[]]]; [apply Fresh in X; lia|inversion X; reflexivity].
    + (* PErase *)
      destruct Ag as (-> & <-). destruct (tcache (tab s t)) as [|e ct] eqn:Et; inversion H; subst s'.
      * set (ml' := (stamp s, @nil (list Z * option (list Z)), r)). exists [Op i CPurge ONone (count s) (clock s) up], ml'.
        assert (Rp : replays t K (stamp s, c, r) [Op i CPurge ONone (count s) (clock s) up] ml').
        { eapply ROp; [reflexivity|reflexivity|]. unfold set_tab. cbn [lastPurge tabs tcache tdb]. rewrite Nat.eqb_refl. cbn [tcache tdb]. constructor. }
        assert (Se : exists q, (b < q <= count s)%nat /\ clock s = clock_at c0 ls q) by (exists (count s); split; [lia|exact ck]).
        apply (inv_inside t K c0 m0 ls s lin _ i up (stamp s) (tab s) (Leave t ONone) [Op i CPurge ONone (count s) (clock s) up] ml' I Ow); try assumption; try reflexivity.
        -- right. rewrite At, Ec. cbn [snd]. split; [reflexivity|]. eexists _, _, _. reflexivity.
        -- unfold agrees, ml'. cbn [goto at_ cur stamp tab count]. rewrite !setf_same, Ec. cbv zeta. split; [discriminate|]. split; [reflexivity|]. split; [exact Et|]. apply New; [exact Sb|exact Se].
        -- rewrite Ec, At. cbn [fst snd]. intros o p tm u X _ [->|[]]. apply in_app_or in X. destruct X as [X|[X|[]]]; [apply Fresh in X; lia|inversion X; reflexivity].
      * exists [], (stamp s, c, r).
        apply (inv_inside t K c0 m0 ls s lin _ i up (stamp s) (setf (tab s) t (CTable ct (tdb (tab s t)))) (PErase t) [] _ I Ow); try assumption; try (left; reflexivity); try apply RNil; try reflexivity.
        -- rewrite setf_same. exact Ro.
        -- unfold agrees. cbn [goto at_ cur stamp tab count]. rewrite !setf_same, Ec. cbv zeta. auto.
        -- rewrite Ec, At. cbn [fst snd]. intros o p tm u X _ Y. exact (NoNew _ o p tm u X Y).
    + (* VRead *)
      specialize (Rd t k eq_refl). subst ca. rewrite Sc in H. destruct (K k) as [kd|] eqn:Ek; [|exfalso; exact (Va k (or_intror eq_refl) Ek)]. inversion H; subst s'. exists [], (last, c, r).
      apply (inv_outside t _ c0 m0 ls s lin (last, c, r) _ _ [] _ i); cbn [goto finish sch stamp tab owner count clock at_ cur past]; auto; try lia; try reflexivity.
      * intros j N. rewrite !(setf_other _ i _ j N). auto.
      * right. rewrite At, !setf_same. cbn [inside home]. split; [reflexivity|]. split; [reflexivity|]. split; [discriminate|]. split; [intros X; contradiction|]. split; [intros k' [X|X]; discriminate|]. split; [discriminate|]. split; [discriminate|]. intros X. contradiction.
      * right. rewrite Ec. cbn [fst snd]. eexists _, k. split; [reflexivity|]. cbn [what where_ begun ended]. split; [reflexivity|]. split; [reflexivity|]. split; [lia|]. cbn [who]. split; [reflexivity|]. split; [reflexivity|]. rewrite setf_same, At. split; [discriminate|reflexivity].
    + (* Leave *)
      inversion H; subst s'. exists [], (last, c, r). apply inv_leave; [exact I|exact At].
  - cbn [step] in H. destruct (Z.ltb_spec d 0); [discriminate|]. inversion H; subst. exists [], ml.
    apply (inv_outside t K c0 m0 ls s lin ml _ _ [] ml O); cbn [sch stamp tab owner count clock at_ cur past]; auto; try reflexivity.
  - cbn [step] in H. inversion H; subst. destruct (Nat.eqb_spec t' t) as [->|N].
    + exists [Ext r (count s)], (fst ml, r). apply (inv_outside t K c0 m0 ls s lin ml _ _ [Ext r (count s)] _ O); cbn [put_rows sch stamp tab owner count clock at_ cur past]; auto; try lia.
      * rewrite setf_same. reflexivity.
      * right. exists r. rewrite setf_same. auto.
      * cbn [externals exts]. rewrite Nat.eqb_refl. reflexivity.
    + exists [], ml. apply (inv_outside t K c0 m0 ls s lin ml _ _ [] _ O); cbn [put_rows sch stamp tab owner count clock at_ cur past]; auto; try lia.
      * rewrite setf_other by auto. reflexivity.
      * left. rewrite setf_other by auto. auto.
      * cbn [externals exts]. destruct (Nat.eqb_spec t' t); [contradiction|reflexivity].
Qed.
Lemma inv_runs t K c0 last0 T Ss ls : Ss t = K -> Forall (uses t K) ls -> forall s, runs (start c0 last0 T Ss) ls = Ok s ->
  exists lin ml, inv t K c0 (last0, tcache (T t), tdb (T t)) ls s lin ml.
Proof.
  intros E. induction ls as [|a ls IH] using rev_ind; intros F s H.
  - inversion H; subst s. eexists _, _. apply inv_start. exact E.
  - apply Forall_app in F. destruct F as [F Fa]. rewrite runs_app in H. apply bind_ok in H. destruct H as (s1 & H1 & H2). destruct (IH F s1 H1) as (lin & ml & I).
    cbn [runs] in H2. apply bind_ok in H2. destruct H2 as (s2 & H2 & H3). inversion H3; subst s2. inversion Fa; subst. destruct (inv_step _ _ _ _ _ _ _ _ _ _ I H4 H2) as (l' & m' & I').
    eexists _, _. exact I'.
Qed.
(** ** What holds whatever the threads do *)
Record safe (s : sys) : Prop := Safe {
  s_inside : forall i t, inside (at_ s i) = true -> home (at_ s i) = Some t -> owner s t = Some i;
  s_owner : forall i t, owner s t = Some i -> inside (at_ s i) = true /\ home (at_ s i) = Some t;
  s_copy : forall i t k, at_ s i = GCopy t k -> cfind (tcache (tab s t)) k <> None }.
Lemma safe_start c0 last0 T Ss : safe (start c0 last0 T Ss).
Proof. constructor; cbn [start at_ owner tab]; intros; discriminate. Qed.
(** A thread that neither takes nor gives back a lock. *)
Lemma safe_goto s i s1 p : safe s -> at_ s1 = at_ s -> owner s1 = owner s -> inside p = inside (at_ s i) -> (inside p = true -> home p = home (at_ s i)) ->
  (forall j t, j <> i -> inside (at_ s j) = true -> home (at_ s j) = Some t -> tcache (tab s1 t) = tcache (tab s t)) ->
  (forall t k, p = GCopy t k -> cfind (tcache (tab s1 t)) k <> None) -> safe (goto s1 i p).
Proof.
  intros [A B C] E1 E2 P1 P2 P3 P4. constructor; cbn [goto at_ owner tab]; rewrite ?E1, ?E2.
  - intros j t. unfold setf. destruct (Nat.eqb_spec j i) as [->|N]; [|apply A]. intros X Y. rewrite (P2 X) in Y. apply A; [rewrite <- P1; exact X|exact Y].
  - intros j t X. unfold setf. destruct (B j t X) as [X1 X2]. destruct (Nat.eqb_spec j i) as [->|N]; [|split; assumption]. rewrite X1 in P1. split; [exact P1|rewrite (P2 P1); exact X2].
  - intros j t k. unfold setf. destruct (Nat.eqb_spec j i) as [->|N]; [apply P4|]. intros X. rewrite (P3 j t N); [|rewrite X; reflexivity|rewrite X; reflexivity]. apply (C j t k X).
Qed.
Lemma safe_step s a s' : safe s -> step s a = Ok s' -> safe s'.
Proof.
  intros Sf H. pose proof Sf as [A B C]. destruct a as [i t c|i up|d|t r].
  - cbn [step] in H. destruct (at_ s i) eqn:At; try discriminate. inversion H; subst s'. constructor; cbn [at_ owner tab].
    + intros j u. unfold setf. destruct (Nat.eqb_spec j i) as [->|N]; [discriminate|apply A].
    + intros j u X. unfold setf. destruct (Nat.eqb_spec j i) as [->|N]; [|exact (B j u X)]. destruct (B i u X) as [Y _]. rewrite At in Y. discriminate.
    + intros j u k. unfold setf. destruct (Nat.eqb_spec j i) as [->|N]; [discriminate|apply C].
  - cbn [step] in H. unfold micro in H.
    assert (Al : forall u, inside (at_ s i) = true -> home (at_ s i) = Some u -> forall j t, j <> i -> inside (at_ s j) = true -> home (at_ s j) = Some t -> t <> u).
    { intros u X1 X2 j t N Y1 Y2 ->. apply (A i u X1) in X2. apply (A j u Y1) in Y2. rewrite X2 in Y2. inversion Y2. congruence. }
    destruct (at_ s i) as [|u d|u k|u k n|u k|u k|u k|u k|u k v|u k|u k v|u k v cmd|u k v|u k|u k|u|u k|u o] eqn:At; try discriminate; cbn [inside home] in Al; try specialize (Al u eq_refl eq_refl).
    + assert (Acq : forall p', home p' = Some u -> inside p' = true -> (forall t k, p' <> GCopy t k) ->
        match owner s u with Some _ => Diverge | None => Ok (goto (put_owner s u (Some i)) i p') end = Ok s' -> safe s').
      { intros p' P1 P2 P3 E. destruct (owner s u) eqn:On; [discriminate|]. inversion E; subst s'. constructor; cbn [goto put_owner at_ owner tab].
        - intros j t. unfold setf at 1 2. destruct (Nat.eqb_spec j i) as [->|N].
          + intros _ X. rewrite P1 in X. inversion X; subst t. apply setf_same.
          + intros X Y. rewrite setf_other; [apply A; assumption|]. intros ->. apply (A j u X) in Y. rewrite On in Y. discriminate.
        - intros j t X. unfold setf in X. destruct (Nat.eqb_spec t u) as [Etu|N]; [subst t|].
          + inversion X; subst j. rewrite setf_same. split; assumption.
          + destruct (B j t X) as [X1 X2]. unfold setf. destruct (Nat.eqb_spec j i) as [->|N2]; [rewrite At in X1; discriminate|split; assumption].
        - intros j t k. unfold setf. destruct (Nat.eqb_spec j i) as [->|N]; [intros X; destruct (P3 t k X)|apply C]. }
      destruct d as [k|k v|k| |k]; try (eapply Acq; [| | |exact H]; [reflexivity|reflexivity|discriminate]).
      inversion H; subst s'. apply (safe_goto s i); rewrite ?At; auto; discriminate.
    + inversion H; subst s'. apply (safe_goto s i); rewrite ?At; auto; destruct (clock s - stamp s <? 3); auto; discriminate.
    + inversion H; subst s'. apply (safe_goto s i); rewrite ?At; auto; discriminate.
    + destruct (tcache (tab s u)); inversion H; subst s'; (apply (safe_goto s i); rewrite ?At; auto; try discriminate).
      intros j t N X Y. cbn [put_cache tab]. rewrite setf_other by exact (Al j t N X Y). reflexivity.
    + destruct (cfind (tcache (tab s u)) k) as [[v|]|] eqn:Ef; inversion H; subst s'; (apply (safe_goto s i); rewrite ?At; auto; try discriminate).
      intros t k' X. inversion X; subst. rewrite Ef. discriminate.
    + inversion H; subst s'. apply (safe_goto s i); rewrite ?At; auto; destruct (snd _); auto; discriminate.
    + inversion H; subst s'. apply (safe_goto s i); rewrite ?At; auto; discriminate.
    + inversion H; subst s'. apply (safe_goto s i); rewrite ?At; auto.
      * destruct v; reflexivity.
      * destruct v; reflexivity.
      * intros j t N X Y. cbn [put_cache tab]. rewrite setf_other by exact (Al j t N X Y). reflexivity.
      * intros t k' X. destruct v; [|discriminate]. inversion X; subst. cbn [put_cache tab]. rewrite setf_same. cbn [tcache]. rewrite cfind_cset, weqb_refl. discriminate.
    + destruct (cfind (tcache (tab s u)) k) as [v|] eqn:Ef; [|discriminate]. inversion H; subst s'. apply (safe_goto s i); rewrite ?At; auto; discriminate.
    + inversion H; subst s'. apply (safe_goto s i); rewrite ?At; auto; discriminate.
    + destruct (command _ _ _ _) as [ok r]. inversion H; subst s'. apply (safe_goto s i); rewrite ?At; auto; try (destruct ok; auto; discriminate).
      intros j t N X Y. cbn [put_rows tab]. rewrite setf_other by exact (Al j t N X Y). reflexivity.
    + inversion H; subst s'. apply (safe_goto s i); rewrite ?At; auto; try discriminate. intros j t N X Y. cbn [put_cache tab]. rewrite setf_other by exact (Al j t N X Y). reflexivity.
    + inversion H; subst s'. apply (safe_goto s i); rewrite ?At; auto; try discriminate. intros j t N X Y. cbn [put_cache tab]. rewrite setf_other by exact (Al j t N X Y). reflexivity.
    + destruct (command _ _ _ _) as [ok r]. inversion H; subst s'. apply (safe_goto s i); rewrite ?At; auto; try discriminate.
      intros j t N X Y. cbn [put_rows tab]. rewrite setf_other by exact (Al j t N X Y). reflexivity.
    + destruct (tcache (tab s u)); inversion H; subst s'; (apply (safe_goto s i); rewrite ?At; auto; try discriminate).
      intros j t N X Y. cbn [put_cache tab]. rewrite setf_other by exact (Al j t N X Y). reflexivity.
    + inversion H; subst s'. apply (safe_goto s i); rewrite ?At; auto; try discriminate; destruct (sch s u k); reflexivity.
    + inversion H; subst s'. constructor; cbn [goto put_owner finish at_ owner tab].
      * intros j t. unfold setf at 1 2. destruct (Nat.eqb_spec j i) as [->|N]; [discriminate|]. intros X Y. rewrite setf_other; [apply A; assumption|exact (Al j t N X Y)].
      * intros j t X. unfold setf in X. destruct (Nat.eqb_spec t u) as [Etu|N]; [discriminate|]. destruct (B j t X) as [X1 X2]. unfold setf. destruct (Nat.eqb_spec j i) as [->|N2]; [|split; assumption].
        rewrite At in X2. inversion X2. congruence.
      * intros j t k. unfold setf. destruct (Nat.eqb_spec j i) as [->|N]; [discriminate|apply C].
  - cbn [step] in H. destruct (d <? 0); [discriminate|]. inversion H; subst s'. constructor; assumption.
  - cbn [step] in H. inversion H; subst s'. constructor; cbn [put_rows at_ owner tab]; [assumption..|]. intros i u k X. unfold setf. destruct (Nat.eqb_spec u t) as [->|N]; cbn [tcache]; exact (C i _ k X).
Qed.
Lemma safe_runs ls : forall s s', safe s -> runs s ls = Ok s' -> safe s'.
Proof.
  induction ls as [|a ls IH]; intros s s' Sf H; [inversion H; subst; exact Sf|]. cbn [runs] in H. apply bind_ok in H. destruct H as (s1 & H1 & H2). exact (IH s1 s' (safe_step _ _ _ Sf H1) H2).
Qed.
(** How many steps a thread that holds the lock has to go. *)
Definition left_ (s : sys) (p : place) : nat :=
  match p with
  | GAge t _ => length (tcache (tab s t)) + 8
  | GStamp t _ _ => length (tcache (tab s t)) + 7
  | GErase t _ => length (tcache (tab s t)) + 6
  | GFind _ _ => 5
  | GQuery _ _ => 4
  | GDefault _ _ => 3
  | GStore _ _ _ => 2
  | GCopy _ _ => 1
  | SSchema _ _ _ => 3
  | SCommand _ _ _ _ => 2
  | SStore _ _ _ => 1
  | RErase _ _ => 2
  | RCommand _ _ => 1
  | PErase t => length (tcache (tab s t)) + 1
  | _ => 0
  end%nat.
Lemma goes_on s i t up : safe s -> inside (at_ s i) = true -> home (at_ s i) = Some t ->
  exists s', step s (LStep i up) = Ok s' /\ (forall j, j <> i -> at_ s' j = at_ s j) /\
  (at_ s' i = Idle /\ owner s' t = None \/ inside (at_ s' i) = true /\ home (at_ s' i) = Some t /\ (left_ s' (at_ s' i) < left_ s (at_ s i))%nat).
Proof.
  intros Sf In_ Ho. pose proof Sf as [A B C]. cbn [step]. unfold micro.
  destruct (at_ s i) as [|u d|u k|u k n|u k|u k|u k|u k|u k v|u k|u k v|u k v cmd|u k v|u k|u k|u|u k|u o] eqn:At; try discriminate; cbn [home] in Ho; inversion Ho; subst u.
  all: try (eexists; split; [reflexivity|]; split; [intros j N; cbn [goto finish put_cache put_rows put_owner put_stamp at_]; apply setf_other; exact N|]).
  - right. cbn [goto at_ tab]. rewrite setf_same. destruct (clock s - stamp s <? 3); cbn [inside home left_ goto tab]; (split; [reflexivity|]; split; [reflexivity|lia]).
  - right. cbn [goto at_ tab]. rewrite setf_same. cbn [inside home left_ goto put_stamp tab]. split; [reflexivity|]; split; [reflexivity|lia].
  - destruct (tcache (tab s t)) as [|e c] eqn:Et; (eexists; split; [reflexivity|]; split; [intros j N; cbn [goto put_cache at_]; apply setf_other; exact N|]); right; cbn [goto put_cache at_]; rewrite setf_same;
    cbn [inside home left_ goto put_cache tab]; rewrite ?setf_same, ?Et; cbn [tcache length]; (split; [reflexivity|]; split; [reflexivity|lia]).
  - right. cbn [goto at_ tab]. rewrite setf_same. destruct (cfind _ _) as [[v|]|]; cbn [inside home left_ goto tab]; (split; [reflexivity|]; split; [reflexivity|lia]).
  - right. cbn [goto at_ tab]. rewrite setf_same. destruct (snd _); cbn [inside home left_ goto tab]; (split; [reflexivity|]; split; [reflexivity|lia]).
  - right. cbn [goto at_ tab]. rewrite setf_same. cbn [inside home left_ goto tab]; (split; [reflexivity|]; split; [reflexivity|lia]).
  - right. cbn [goto put_cache at_ tab]. rewrite setf_same. destruct v; cbn [inside home left_ goto tab]; (split; [reflexivity|]; split; [reflexivity|lia]).
  - specialize (C i t k At). destruct (cfind _ _) as [v|]; [|contradiction]. eexists; split; [reflexivity|]; split; [intros j N; cbn [goto put_cache at_]; apply setf_other; exact N|].
    right. cbn [goto at_ tab]. rewrite setf_same. cbn [inside home left_ goto tab]; (split; [reflexivity|]; split; [reflexivity|lia]).
  - right. cbn [goto at_ tab]. rewrite setf_same. cbn [inside home left_ goto tab]; (split; [reflexivity|]; split; [reflexivity|lia]).
  - destruct (command _ _ _ _) as [ok r]. eexists; split; [reflexivity|]; split; [intros j N; cbn [goto put_rows at_]; apply setf_other; exact N|].
    right. cbn [goto put_rows at_ tab]. rewrite setf_same. destruct ok; cbn [inside home left_ goto tab]; (split; [reflexivity|]; split; [reflexivity|lia]).
  - right. cbn [goto put_cache at_ tab]. rewrite setf_same. cbn [inside home left_ goto tab]; (split; [reflexivity|]; split; [reflexivity|lia]).
  - right. cbn [goto put_cache at_ tab]. rewrite setf_same. cbn [inside home left_ goto tab]; (split; [reflexivity|]; split; [reflexivity|lia]).
  - destruct (command _ _ _ _) as [ok r]. eexists; split; [reflexivity|]; split; [intros j N; cbn [goto put_rows at_]; apply setf_other; exact N|].
    right. cbn [goto put_rows at_ tab]. rewrite setf_same. cbn [inside home left_ goto tab]; (split; [reflexivity|]; split; [reflexivity|lia]).
  - destruct (tcache (tab s t)) as [|e c] eqn:Et; (eexists; split; [reflexivity|]; split; [intros j N; cbn [goto put_cache at_]; apply setf_other; exact N|]); right; cbn [goto put_cache at_]; rewrite setf_same;
    cbn [inside home left_ goto put_cache tab]; rewrite ?setf_same, ?Et; cbn [tcache length]; (split; [reflexivity|]; split; [reflexivity|lia]).
  - left. cbn [goto put_owner finish at_ owner]. rewrite !setf_same. auto.
Qed.
Lemma comes_out up : forall n s i t, safe s -> inside (at_ s i) = true -> home (at_ s i) = Some t -> (left_ s (at_ s i) < n)%nat ->
  exists m s', runs s (repeat (LStep i up) m) = Ok s' /\ safe s' /\ at_ s' i = Idle /\ owner s' t = None /\ forall j, j <> i -> at_ s' j = at_ s j.
Proof.
  induction n as [|n IH]; intros s i t Sf In_ Ho L; [lia|].
  destruct (goes_on s i t up Sf In_ Ho) as (s1 & H1 & Oth & [[Id Ow]|(In1 & Ho1 & L1)]).
  - exists 1%nat, s1. cbn [repeat runs]. rewrite H1. cbn [bind]. split; [reflexivity|]. split; [exact (safe_step _ _ _ Sf H1)|]. auto.
  - destruct (IH s1 i t (safe_step _ _ _ Sf H1) In1 Ho1 ltac:(lia)) as (m & s' & R & Sf' & Id & Ow & Oth'). exists (S m), s'. cbn [repeat runs]. rewrite H1. cbn [bind].
    split; [exact R|]. split; [exact Sf'|]. split; [exact Id|]. split; [exact Ow|]. intros j N. rewrite Oth', Oth by exact N. reflexivity.
Qed.

(** ** Theorems *)
(** Threads that use one table, and ask isValidValue for known names only: whatever the order of their
    steps, there is an order of the calls, with a position of every call between its first and its last step
    and one position only, such that the calls performed one after the other, each at once, give the
    results they returned, and when no thread holds the lock also the cache, the rows and the time of
    the last purge there are.  Changes by other processes take effect in between, where they happen. *)
Theorem C92_linearizable t K c0 last0 T Ss ls s : Ss t = K -> Forall (uses t K) ls -> runs (start c0 last0 T Ss) ls = Ok s ->
  exists lin last c r, replays t K (last0, tcache (T t), tdb (T t)) lin (last, c, r) /\
    StronglySorted lt (positions lin) /\ exts lin = externals t O ls /\
    (forall f, In f (past s) -> (forall k, what f <> CValid k) ->
       exists p tm up q, In (Op (who f) (what f) (result f) p tm up) lin /\ (begun f < p < ended f)%nat /\ (begun f < q <= p)%nat /\ tm = clock_at c0 ls q /\
         forall c' o' p' tm' up', In (Op (who f) c' o' p' tm' up') lin -> (begun f < p' < ended f)%nat -> p' = p) /\
    (forall i d o p tm up, In (Op i d o p tm up) lin ->
       (exists f, In f (past s) /\ who f = i /\ what f = d /\ result f = o /\ (begun f < p < ended f)%nat) \/
       (at_ s i <> Idle /\ snd (cur s i) = d /\ (fst (cur s i) < p)%nat)) /\
    (owner s t = None -> stamp s = last /\ tcache (tab s t) = c) /\ tdb (tab s t) = r.
Proof.
  intros E F H. destruct (inv_runs t K c0 last0 T Ss ls E F s H) as (lin & [[last c] r] & I). destruct I. exists lin, last, c, r.
  split; [assumption|]. split; [apply i_sorted0|]. split; [assumption|]. split; [|split; [|split; [exact i_idle0|exact i_rows0]]].
  - intros f Hf NV. destruct (i_past0 f Hf) as (_ & _ & [[k X]|(p & tm & up & q & X1 & X2 & X3 & X4)]); [destruct (NV k X)|]. exists p, tm, up, q. repeat (split; [assumption|]).
    intros c' o' p' tm' up' Y1 Y2. symmetry. exact (proj1 (i_once0 _ _ _ _ _ _ _ _ _ _ _ X1 Y1) f Hf eq_refl X2 Y2).
  - intros i d o p tm up X. destruct (i_real0 _ _ _ _ _ _ X) as [Y|(Y1 & Y2 & Y3 & _)]; [left; exact Y|right; auto].
Qed.
(** A thread waits or goes on; it never reads an entry of the cache that is gone.  This holds with any number of tables. *)
Theorem C92_no_dangling c0 last0 T Ss ls s a : runs (start c0 last0 T Ss) ls = Ok s -> step s a = Diverge \/ exists s', step s a = Ok s'.
Proof.
  intros H. pose proof (safe_runs _ _ _ (safe_start c0 last0 T Ss) H) as Sf. pose proof Sf as [A B C]. destruct a as [i t c|i up|d|t r].
  - cbn [step]. destruct (at_ s i); eauto.
  - destruct (at_ s i) as [|u d| | | | | | | | | | | | | | |u k| ] eqn:At.
    1: left; cbn [step]; unfold micro; rewrite At; reflexivity.
    1: cbn [step]; unfold micro; rewrite At; destruct d; try (destruct (owner s u)); eauto.
    15: right; cbn [step]; unfold micro; rewrite At; eexists; reflexivity.
    all: right; destruct (goes_on s i _ up Sf (eq_trans (f_equal inside At) eq_refl) (eq_trans (f_equal home At) eq_refl)) as (s' & X & _); exists s'; exact X.
  - cbn [step]. destruct (d <? 0); eauto.
  - right. eexists. reflexivity.
Qed.
(** Every call can be brought to its end: by steps of the thread, after those of the one that holds the lock. *)
Theorem C92_ends c0 last0 T Ss ls s i up : runs (start c0 last0 T Ss) ls = Ok s -> 
  exists n m j s', runs s (repeat (LStep j up) n ++ repeat (LStep i up) m) = Ok s' /\ at_ s' i = Idle.
Proof.
  intros H. pose proof (safe_runs _ _ _ (safe_start c0 last0 T Ss) H) as Sf.
  assert (Fr : forall s u d, safe s -> at_ s i = Want u d -> owner s u = None \/ (exists k, d = CValid k) -> exists m s', runs s (repeat (LStep i up) m) = Ok s' /\ at_ s' i = Idle).
  { clear. intros s u d Sf At Fo.
    assert (St : exists s', step s (LStep i up) = Ok s' /\ (inside (at_ s' i) = true /\ home (at_ s' i) = Some u \/ exists k, at_ s' i = VRead u k)).
    { cbn [step]. unfold micro. rewrite At. destruct d; try (destruct Fo as [->|[k' X]]; [|discriminate]); (eexists; split; [reflexivity|]); cbn [goto put_owner at_]; rewrite setf_same; cbn [inside home]; eauto. }
    destruct St as (s1 & R1 & [[X Y]|[k X]]); pose proof (safe_step _ _ _ Sf R1) as Sf1.
    - destruct (comes_out up (S (left_ s1 (at_ s1 i))) s1 i u Sf1 X Y ltac:(lia)) as (m & s' & R & _ & Id & _). exists (S m), s'. cbn [repeat runs]. rewrite R1. split; [exact R|exact Id].
    - exists 2%nat. assert (exists s', step s1 (LStep i up) = Ok s' /\ at_ s' i = Idle) as (s' & R2 & Id) by (cbn [step]; unfold micro; rewrite X; eexists; split; [reflexivity|]; cbn [goto at_]; apply setf_same).
      exists s'. cbn [repeat runs]. rewrite R1. cbn [bind]. rewrite R2. split; [reflexivity|exact Id]. }
  assert (Cs : (at_ s i = Idle) \/ (exists u d, at_ s i = Want u d) \/ (exists u k, at_ s i = VRead u k) \/ (inside (at_ s i) = true /\ exists u, home (at_ s i) = Some u)).
  { destruct (at_ s i); cbn [inside home]; eauto 10. }
  destruct Cs as [Id|[(u & d & At)|[(u & k & At)|(In_ & u & Ho)]]].
  - exists O, O, i, s. auto.
  - destruct (owner s u) as [j|] eqn:Ow.
    + destruct (s_owner s Sf j u Ow) as [X Y]. destruct (comes_out up (S (left_ s (at_ s j))) s j u Sf X Y ltac:(lia)) as (n & s1 & R1 & Sf1 & _ & Ow1 & Oth).
      assert (N : i <> j) by (intros ->; rewrite At in X; discriminate). assert (At1 : at_ s1 i = Want u d) by (rewrite Oth by exact N; exact At).
      destruct (Fr s1 u d Sf1 At1 (or_introl Ow1)) as (m & s' & R2 & Id). exists n, m, j, s'. rewrite runs_app, R1. split; [exact R2|exact Id].
    + destruct (Fr s u d Sf At (or_introl Ow)) as (m & s' & R2 & Id). exists O, m, i, s'. split; [exact R2|exact Id].
  - exists O, 1%nat, i. assert (exists s', step s (LStep i up) = Ok s' /\ at_ s' i = Idle) as (s' & R2 & Id) by (cbn [step]; unfold micro; rewrite At; eexists; split; [reflexivity|]; cbn [goto at_]; apply setf_same).
    exists s'. cbn [repeat runs app]. rewrite R2. split; [reflexivity|exact Id].
  - destruct (comes_out up (S (left_ s (at_ s i))) s i u Sf In_ Ho ltac:(lia)) as (m & s' & R & _ & Id & _). exists O, m, i, s'. split; [exact R|exact Id].
Qed.
(** Two threads never hold the lock of a table, and where two access the same memory and one writes
    it is the time of the last purge, by two tables, or mSchema, by isValidValue of an unknown name. *)
Theorem C92_only_races c0 last0 T Ss ls s i j m wi wj : runs (start c0 last0 T Ss) ls = Ok s -> i <> j ->
  touches s i = Some (m, wi) -> touches s j = Some (m, wj) -> wi = true \/ wj = true ->
  m = MStamp /\ home (at_ s i) <> home (at_ s j) \/
  exists t k, m = MSchema t /\ sch s t k = None /\ (at_ s i = VRead t k \/ at_ s j = VRead t k).
Proof.
  intros H N Hi Hj W. destruct (safe_runs _ _ _ (safe_start c0 last0 T Ss) H) as [A B C].
  assert (Ex : forall t, inside (at_ s i) = true -> inside (at_ s j) = true -> home (at_ s i) = Some t -> home (at_ s j) = Some t -> False).
  { intros t X1 X2 Y1 Y2. apply (A i t X1) in Y1. apply (A j t X2) in Y2. rewrite Y1 in Y2. inversion Y2. contradiction. }
  unfold touches in Hi, Hj. destruct (at_ s i) as [|u d|u k|u k n|u k|u k|u k|u k|u k v|u k|u k v|u k v cmd|u k v|u k|u k|u|u k|u o] eqn:Ai; try discriminate;
  destruct (at_ s j) as [|u' d'|u' k'|u' k' n'|u' k'|u' k'|u' k'|u' k'|u' k' v'|u' k'|u' k' v'|u' k' v' cmd'|u' k' v'|u' k'|u' k'|u'|u' k'|u' o'] eqn:Aj; try discriminate;
  inversion Hi; subst; inversion Hj; subst; cbn [inside home] in *;
  try (exfalso; eapply Ex; reflexivity);
  try (left; split; [reflexivity|]; intros X; inversion X; subst; eapply Ex; reflexivity).
  all: right; destruct W as [W|W]; try discriminate W; match type of W with context [sch ?z ?t ?k] => exists t, k; destruct (sch z t k); [discriminate W|auto] end.
Qed.
Theorem C92_race_free t K c0 last0 T Ss ls s : Ss t = K -> Forall (uses t K) ls -> runs (start c0 last0 T Ss) ls = Ok s -> ~ races s.
Proof.
  intros E F H (i & j & m & wi & wj & N & Hi & Hj & W). destruct (inv_runs t K c0 last0 T Ss ls E F s H) as (lin & ml & I). destruct I.
  destruct (C92_only_races c0 last0 T Ss ls s i j m wi wj H N Hi Hj W) as [[-> X]|(u & k & -> & X & Y)].
  - assert (Hm : forall i w, touches s i = Some (MStamp, w) -> home (at_ s i) = Some t).
    { intros x w Z. destruct (home (at_ s x)) as [v|] eqn:Hv; [rewrite (i_home0 x v Hv); reflexivity|]. unfold touches in Z. destruct (at_ s x); discriminate. }
    apply X. rewrite (Hm i wi Hi), (Hm j wj Hj). reflexivity.
  - assert (u = t). { destruct Y as [Y|Y]; [apply (i_home0 i); rewrite Y; reflexivity|apply (i_home0 j); rewrite Y; reflexivity]. }
    subst u. rewrite i_schema0 in X. destruct Y as [Y|Y]; exact (i_valid0 _ k (or_intror Y) X).
Qed.
(** Defect: each table has its own lock, but the time of the last purge is one static variable. *)
Theorem C92_two_tables_refuted : exists ls s, runs (start 10 0 (fun _ => CTable [] []) (fun _ _ => None)) ls = Ok s /\ races s /\
  forall l, In l ls -> exists i c, l = LCall i i (CGet c) \/ l = LStep i true.
Proof.
  exists [LCall 0 0 (CGet [97]); LCall 1 1 (CGet [97]); LStep 0 true; LStep 0 true; LStep 1 true]. eexists. split; [vm_compute; reflexivity|]. split.
  - exists O, 1%nat, MStamp, true, false. split; [discriminate|]. split; [reflexivity|]. split; [reflexivity|left; reflexivity].
  - intros l [<-|[<-|[<-|[<-|[<-|[]]]]]]; first [exists O, [97]; solve [auto]|exists 1%nat, [97]; solve [auto]].
Qed.
(** Defect: isValidValue takes no lock and makes an entry of an unknown name in mSchema, while another
    thread may look there; afterwards the name has an empty value, which getStr returns instead of throwing. *)
Theorem C92_unknown_refuted : exists ls s rest s', runs (start 10 10 (fun _ => CTable [] []) (fun _ _ => None)) ls = Ok s /\ races s /\
  runs s rest = Ok s' /\ In (Finished 0 0 (CGet [97]) (OVal (Some [])) O 11) (past s') /\
  cstep (fun _ => None) (World 10 10 (fun _ => CTable [] [])) (EGet 0 [97] true) = (OVal None, World 10 10 (fun t => if (t =? 0)%nat then CTable [([97], None)] [] else CTable [] [])).
Proof.
  exists [LCall 0 0 (CGet [97]); LCall 1 0 (CValid [97]); LStep 0 true; LStep 0 true; LStep 0 true; LStep 0 true; LStep 1 true]. eexists.
  exists [LStep 1 true; LStep 0 true; LStep 0 true; LStep 0 true; LStep 0 true]. eexists.
  split; [vm_compute; reflexivity|]. split.
  - exists O, 1%nat, (MSchema O), false, true. split; [discriminate|]. split; [reflexivity|]. split; [reflexivity|right; reflexivity].
  - split; [vm_compute; reflexivity|]. split; [vm_compute; auto|]. vm_compute. reflexivity.
Qed.
(** Two threads set a value and read it, a third purges: the reader gets the value of the database. *)
Example C92_ex : exists s, runs (start 100 0 (fun _ => CTable [([97], Some [49])] [([97], Some [50])]) (fun _ _ => None))
    [LCall 0 0 (CGet [97]); LCall 1 0 (CSet [97] [51]); LStep 0 true; LTick 1; LStep 0 true; LStep 0 true; LStep 0 true; LStep 0 true; LStep 0 true; LStep 0 true; LExternal 0 [([97], Some [52])];
     LStep 0 true; LStep 0 true; LStep 0 true; LStep 1 true; LStep 1 true; LStep 1 true; LStep 1 true; LStep 1 true] = Ok s /\
  past s = [Finished 0 0 (CGet [97]) (OVal (Some [50])) 0 13; Finished 1 0 (CSet [97] [51]) (OBool true) 1 18] /\ tab s O = CTable [([97], Some [51])] [([97], Some [51])] /\ stamp s = 101.
Proof. eexists. split; [vm_compute; reflexivity|]. vm_compute. auto. Qed.
Print Assumptions C92_linearizable. Print Assumptions C92_no_dangling. Print Assumptions C92_ends. Print Assumptions C92_only_races. Print Assumptions C92_race_free. Print Assumptions C92_two_tables_refuted. Print Assumptions C92_unknown_refuted.
