(** C126: a registered process, signals and its end. *)
From Verif Require Import Base BaseFacts ProcEndModel.
From Coq Require Import Lia.
Local Open Scope nat_scope.

(** A program that registers itself at most once. *)
Definition is_reg (o : op) : bool := match o with RegisterProgram _ => true | _ => false end.
Definition once (ops : list op) : Prop := length (filter is_reg ops) <= 1.
(** A signal other than KILL comes when RegisterProgram is through, not in the middle of RegisterFile, and before gSelf is destroyed. *)
Definition calm (s : state) (e : event) : Prop :=
  match e with Tick => True | Sig g => 1 <= g <= 63 /\ g <> 9 /\ file s <> None /\ half s = false /\ alive s = true end.
Inductive calmly (fs : list nat) (ops : list op) : state -> Prop :=
  | calmly_0 : calmly fs ops (start fs ops)
  | calmly_S : forall s e s', calmly fs ops s -> calm s e -> step s e = Ok s' -> calmly fs ops s'.
(** The pid file and the registered files are gone. *)
Definition gone (s : state) : Prop := forall f, In f (pids s ++ reg s) -> ~ In f (files s).

(** ** Facts *)
Definition gone_n (s : state) (n : nat) : Prop := (forall f, In f (pids s) -> ~ In f (files s)) /\ (forall f, In f (firstn n (reg s)) -> ~ In f (files s)).
Definition noreg (ops : list op) : Prop := filter is_reg ops = [].
Definition rest (s : state) (ops : list op) (c : list instr) : Prop :=
  (half s = false /\ c = flat_map compile ops ++ [IDone]) \/ (half s = true /\ exists f, c = IPush2 f :: flat_map compile ops ++ [IDone]).
Inductive Tail : list instr -> option (list instr) -> Prop :=
  | t_dfl : forall g c, Tail (ISetDfl g :: IKill g :: c) (Some c)
  | t_kill : forall g c, Tail (IKill g :: c) (Some c)
  | t_free : Tail [IFreeSelf; IFreeSig; IEnd] None.
Inductive OkCode (s : state) : list instr -> Prop :=
  | ok_ops : forall c ops, noreg ops -> rest s ops c -> OkCode s c
  | ok_tail : forall t r, half s = false -> Tail t r -> (forall c, r = Some c -> OkCode s c) -> gone s -> OkCode s t
  | ok_ex : forall k t r, half s = false -> Tail t r -> (forall c, r = Some c -> OkCode s c) -> OkCode s (IExit :: repeat IExit k ++ t)
  | ok_unl : forall k t r p, half s = false -> Tail t r -> (forall c, r = Some c -> OkCode s c) -> file s = Some p -> OkCode s (IUnlink p :: IWalk 0 :: repeat IExit k ++ t)
  | ok_walk : forall k n t r, half s = false -> Tail t r -> (forall c, r = Some c -> OkCode s c) -> gone_n s n -> OkCode s (IWalk n :: repeat IExit k ++ t)
  | ok_ign : forall g c, half s = false -> OkCode s c -> OkCode s (ISetIgn g :: c).
Definition kills (s : state) : Prop := forall g, 1 <= g <= 63 -> g <> 9 -> fatal g = true -> disp s g = Dfl -> gone s /\ In (IKill g) (code s).
Definition hands (s : state) : Prop := alive s = true -> forall g, disp s g = Caught -> In g (hs s).
Inductive Phase (s : state) : Prop :=
  | p_pre : forall ops, once ops -> pids s = [] -> file s = None -> alive s = true -> atx s = 0 -> rest s ops (code s) -> over s = false -> Phase s
  | p_new : forall p ops, noreg ops -> pids s = [] -> file s = None -> alive s = true -> half s = false ->
      code s = ICreate p :: IAtExit :: map IReg registered ++ ISetFile p :: flat_map compile ops ++ [IDone] -> over s = false -> Phase s
  | p_mid : forall p ops m, noreg ops -> pids s = [p] -> file s = None -> alive s = true -> half s = false ->
      code s = m ++ ISetFile p :: flat_map compile ops ++ [IDone] -> (forall i, In i m -> i = IAtExit \/ exists g, i = IReg g) ->
      (1 <= atx s \/ In IAtExit m) -> (forall g, In g registered -> catchable g = true -> disp s g = Caught \/ In (IReg g) m) -> over s = false -> Phase s
  | p_post : forall p, file s = Some p -> pids s = [p] -> alive s = true -> 1 <= atx s -> OkCode s (code s) -> kills s -> over s = false -> Phase s
  | p_dead : alive s = false -> file s = None -> gone s -> (code s = [IFreeSig; IEnd] \/ code s = [IEnd]) -> over s = false -> Phase s
  | p_none : pids s = [] -> file s = None -> atx s = 0 -> (code s = [IDone] \/ code s = [IFreeSelf; IFreeSig; IEnd] \/ (alive s = false /\ (code s = [IFreeSig; IEnd] \/ code s = [IEnd]))) -> over s = false -> Phase s
  | p_over : over s = true -> (pids s <> [] -> gone s) -> Phase s.

Lemma in_unlink : forall f x l, In x (unlink f l) <-> In x l /\ x <> f.
Proof. intros f x l. unfold unlink. rewrite filter_In. destruct (Nat.eqb_spec x f); cbn [negb]; split; intros (A & B); split; auto; congruence. Qed.
Lemma ok_mono : forall s s' c, OkCode s c -> half s' = half s -> file s' = file s -> reg s' = reg s -> pids s' = pids s -> (forall f, In f (files s') -> In f (files s)) -> OkCode s' c.
Proof.
  intros s s' c H HF FL RG PD SUB.
  assert (G : gone s -> gone s') by (intros G f I J; rewrite PD, RG in I; exact (G f I (SUB f J))).
  assert (GN : forall n, gone_n s n -> gone_n s' n) by (intros n (G1 & G2); split; intros f I J; [rewrite PD in I; exact (G1 f I (SUB f J))|rewrite RG in I; exact (G2 f I (SUB f J))]).
  induction H as [c ops N R|t r HH TL K IH GO|k t r HH TL K IH|k t r p HH TL K IH F|k n t r HH TL K IH GO|g c HH K IH].
  - apply ok_ops with ops; auto. unfold rest in *. rewrite HF. exact R.
  - apply ok_tail with r; auto. congruence.
  - apply ok_ex with r; auto. congruence.
  - apply ok_unl with r; auto; congruence.
  - apply ok_walk with r; auto. congruence.
  - apply ok_ign; auto. congruence.
Qed.
Lemma ops_cons : forall o ops, flat_map compile (o :: ops) ++ [IDone] = compile o ++ flat_map compile ops ++ [IDone].
Proof. intros. cbn [flat_map]. rewrite <- app_assoc. reflexivity. Qed.
Lemma ops_no_kill : forall ops g, ~ In (IKill g) (flat_map compile ops ++ [IDone]).
Proof.
  intros ops g I. apply in_app_or in I. destruct I as [I|[I|[]]]; [|discriminate]. apply in_flat_map in I. destruct I as (o & _ & I).
  destruct o as [p|f|f]; cbn [compile] in I.
  - apply in_app_or in I. destruct I as [[I|[I|[I|[]]]]|I]; try discriminate. apply in_app_or in I. destruct I as [I|[I|[]]]; [|discriminate].
    apply in_map_iff in I. destruct I as (x & I & _). discriminate.
  - destruct I as [I|[I|[]]]; discriminate.
  - destruct I as [I|[]]; discriminate.
Qed.
Lemma fatal_reg : forall g, 1 <= g <= 63 -> g <> 9 -> fatal g = true -> In g registered /\ catchable g = true.
Proof.
  intros g R N F. assert (D : g <> 17 /\ g <> 18 /\ g <> 19) by (split; [|split]; intros ->; discriminate). destruct D as (D1 & D2 & D3). split.
  - unfold registered. apply filter_In. split; [apply in_seq; lia|]. destruct (Nat.eqb_spec g 17); [congruence|]. destruct (Nat.eqb_spec g 18); [congruence|]. reflexivity.
  - unfold catchable. destruct (Nat.eqb_spec g 9); [congruence|]. destruct (Nat.eqb_spec g 19); [congruence|]. reflexivity.
Qed.
Local Opaque registered.
Lemma handler_ok : forall s g c, OkCode s c -> half s = false -> In g (hs s) -> OkCode s (handler s g ++ c).
Proof.
  intros s g c H HF I. unfold handler. apply (count_occ_In Nat.eq_dec) in I. destruct (count_occ Nat.eq_dec (hs s) g) as [|k]; [lia|].
  cbn [app repeat]. rewrite <- app_assoc. cbn [app]. apply ok_ign; auto. apply ok_ex with (Some c); auto; [constructor|]. intros c' E. injection E as <-. exact H.
Qed.
(** A signal, while the process is registered. *)
Lemma deliver_ok : forall s g p, file s = Some p -> pids s = [p] -> alive s = true -> 1 <= atx s -> OkCode s (code s) -> half s = false -> hands s ->
  (disp s g = Dfl -> fatal g = true -> gone s) -> kills s -> over s = false -> Phase (deliver s g).
Proof.
  intros s g p F P A X K HF HS G KI V. unfold deliver. destruct (disp s g) eqn:D.
  - destruct (fatal g) eqn:FT.
    + apply p_over; [reflexivity|]. intros _. exact (G eq_refl eq_refl).
    + eapply p_post; eauto.
  - apply p_post with p; auto.
    + apply ok_mono with s; auto. cbn [code set_code]. apply handler_ok; auto.
    + intros g' R N FT D'. destruct (KI g' R N FT D') as (G1 & I). split; [exact G1|]. cbn [code set_code]. apply in_or_app. right. exact I.
  - eapply p_post; eauto.
Qed.
Lemma hands_deliver : forall s g, hands s -> hands (deliver s g).
Proof. intros s g H. unfold deliver. destruct (disp s g); auto. destruct (fatal g); auto. Qed.
Lemma hands_step : forall s e s', hands s -> (forall c, code s = IFreeSig :: c -> alive s = false) -> step s e = Ok s' -> hands s'.
Proof.
  intros s e s' H FS E. unfold step in E. destruct (over s); [discriminate|]. destruct e as [|g].
  - destruct (code s) as [|i c]; [discriminate|]. assert (H1 : hands (set_code s c)) by exact H.
    assert (F1 : i = IFreeSig -> alive (set_code s c) = false) by (intros ->; exact (FS c eq_refl)).
    revert E H1 F1. generalize (set_code s c). clear FS H s c. intros s E H FS.
    destruct i; cbn [exec] in E; try (injection E as <-; exact H).
    + destruct (existsb (Nat.eqb p) (files s)); injection E as <-; exact H.
    + injection E as <-. intros A h D. cbn [disp hs set_disp] in *. apply in_or_app. destruct (catchable g); [|left; exact (H A h D)]. unfold give in D.
      destruct (Nat.eqb_spec h g) as [Q|Q]; [subst h; right; left; reflexivity|left; exact (H A h D)].
    + destruct (alive s); [|discriminate]. injection E as <-. exact H.
    + destruct (alive s && negb (half s)); [|discriminate]. destruct (nth_error (reg s) n); injection E as <-; exact H.
    + injection E as <-. intros A h D. cbn [disp hs set_disp] in *. unfold give in D. destruct (h =? g); [discriminate|exact (H A h D)].
    + injection E as <-. intros A h D. cbn [disp hs set_disp] in *. unfold give in D. destruct (h =? g); [discriminate|exact (H A h D)].
    + injection E as <-. apply hands_deliver. exact H.
    + injection E as <-. intros A. cbn [alive] in A. discriminate.
    + injection E as <-. intros A. cbn [alive set_disp] in A. rewrite (FS eq_refl) in A. discriminate.
  - injection E as <-. apply hands_deliver. exact H.
Qed.
Lemma ops_head : forall ops i c, flat_map compile ops ++ [IDone] = i :: c -> i <> IFreeSig.
Proof. intros [|[p|f|f] ops] i c E; cbn in E; injection E as <- _; discriminate. Qed.
Lemma ok_head : forall s c, OkCode s c -> forall c', c <> IFreeSig :: c'.
Proof.
  intros s c H c' ->. inversion H; subst; try congruence.
  - destruct H1 as [(_ & E)|(_ & f & E)]; [|discriminate]. exact (ops_head _ _ _ (eq_sym E) eq_refl).
  - inversion H1.
Qed.
Lemma phase_free : forall s, Phase s -> over s = false -> forall c, code s = IFreeSig :: c -> alive s = false.
Proof.
  intros s [ops O P F A X R V|p ops O P F A HF C V|p ops m O P F A HF C M X D V|p F P A X K KI V|A F G C V|P F X C V|O G] OV c E; auto; try congruence.
  - rewrite E in R. destruct R as [(_ & R)|(_ & f & R)]; [|discriminate]. exfalso. exact (ops_head _ _ _ (eq_sym R) eq_refl).
  - rewrite E in C. destruct m as [|i m]; [discriminate|]. injection C as <- _. destruct (M IFreeSig (or_introl eq_refl)) as [Q|(g & Q)]; discriminate.
  - exfalso. rewrite E in K. exact (ok_head _ _ K _ eq_refl).
  - destruct C as [C|[C|(A & _)]]; [congruence|congruence|auto].
Qed.
Lemma after_exits : forall s k t r, half s = false -> Tail t r -> (forall c, r = Some c -> OkCode s c) -> gone s -> OkCode s (repeat IExit k ++ t).
Proof. intros s [|k] t r HF TL K G; [apply ok_tail with r|apply ok_ex with r]; auto. Qed.
Lemma firstn_S : forall (l : list nat) n f, nth_error l n = Some f -> forall x, In x (firstn (S n) l) -> In x (firstn n l) \/ x = f.
Proof.
  induction l as [|a l IH]; intros [|n] f E x I; try discriminate.
  - injection E as ->. destruct I as [I|[]]; auto.
  - cbn [firstn In] in *. destruct I as [I|I]; [auto|]. destruct (IH n f E x I); auto.
Qed.
(** A step while the process is registered. *)
Lemma post_step : forall s p i c, over s = false -> file s = Some p -> pids s = [p] -> alive s = true -> 1 <= atx s -> OkCode s (i :: c) -> code s = i :: c -> kills s -> hands s ->
  exists s', exec (set_code s c) i = Ok s' /\ Phase s'.
Proof.
  intros s p i c OV F P A X K C KI HS. remember (i :: c) as ic eqn:EC. destruct K as [ic ops N R|t r HF TL K GO|k t r HF TL K|k t r q HF TL K FQ|k n t r HF TL K GO|g ic HF K].
  - (* the program itself *)
    assert (NK : forall g, ~ In (IKill g) (i :: c)).
    { intros g I. rewrite <- EC in I. destruct R as [(_ & R)|(_ & f & R)]; rewrite R in I; [exact (ops_no_kill _ _ I)|]. destruct I as [I|I]; [discriminate|exact (ops_no_kill _ _ I)]. }
    assert (K0 : forall g, 1 <= g <= 63 -> g <> 9 -> fatal g = true -> disp s g <> Dfl).
    { intros g R1 R2 R3 R4. destruct (KI g R1 R2 R3 R4) as (_ & I). rewrite C, EC in I. exact (NK g I). }
    destruct R as [(HF & R)|(HF & f & R)].
    + destruct ops as [|[q|f|f] ops].
      * rewrite R in EC. injection EC as <- <-. eexists. split; [reflexivity|]. apply p_post with p; auto.
        -- cbn [code set_code atx exec]. destruct (atx s) as [|k] eqn:AX; [lia|]. cbn [repeat app]. apply ok_ex with None; auto; [constructor|discriminate].
        -- intros g R1 R2 R3 R4. exfalso. exact (K0 g R1 R2 R3 R4).
      * unfold noreg in N. cbn [filter is_reg] in N. discriminate.
      * rewrite ops_cons in R. rewrite R in EC. cbn [compile app] in EC. injection EC as <- <-. eexists. split; [reflexivity|]. apply p_post with p; auto.
        -- apply ok_ops with ops; auto. right. split; [reflexivity|]. exists f. reflexivity.
        -- intros g R1 R2 R3 R4. exfalso. exact (K0 g R1 R2 R3 R4).
      * rewrite ops_cons in R. rewrite R in EC. cbn [compile app] in EC. injection EC as <- <-. eexists. split; [reflexivity|]. apply p_post with p; auto.
        -- apply ok_ops with ops; auto. left. split; [exact HF|reflexivity].
        -- intros g R1 R2 R3 R4. exfalso. exact (K0 g R1 R2 R3 R4).
    + rewrite R in EC. injection EC as <- <-. eexists. split; [reflexivity|]. apply p_post with p; auto.
      * apply ok_ops with ops; auto. left. split; reflexivity.
      * intros g R1 R2 R3 R4. exfalso. exact (K0 g R1 R2 R3 R4).
  - (* all is removed *)
    destruct TL as [g d|g d|].
    + injection EC as <- <-. eexists. split; [reflexivity|]. apply p_post with p; auto.
      * apply ok_mono with s; auto. cbn [code set_disp set_code]. apply ok_tail with (Some d); auto. constructor.
      * intros h R1 R2 R3 R4. split; [exact GO|]. cbn [code set_disp set_code disp] in *. unfold give in R4. destruct (Nat.eqb_spec h g) as [->|D]; [left; reflexivity|].
        destruct (KI h R1 R2 R3 R4) as (_ & I). rewrite C in I. destruct I as [I|I]; [discriminate|exact I].
    + injection EC as <- <-. eexists. split; [reflexivity|]. unfold deliver. cbn [disp set_code]. destruct (disp s g) eqn:D.
      * destruct (fatal g) eqn:FT; [apply p_over; [reflexivity|intros _; exact GO]|]. apply p_post with p; auto.
        -- apply ok_mono with s; auto.
        -- intros h R1 R2 R3 R4. split; [exact GO|]. destruct (KI h R1 R2 R3 R4) as (_ & I). rewrite C in I. destruct I as [I|I]; [congruence|exact I].
      * apply p_post with p; auto.
        -- apply ok_mono with s; auto. cbn [code set_code]. change (handler (set_code s d) g) with (handler s g). apply handler_ok; auto.
        -- intros h R1 R2 R3 R4. split; [exact GO|]. destruct (KI h R1 R2 R3 R4) as (_ & I). rewrite C in I. cbn [code set_code]. apply in_or_app. right.
           destruct I as [I|I]; [|exact I]. injection I as ->. cbn [disp set_code] in R4. congruence.
      * apply p_post with p; auto.
        -- apply ok_mono with s; auto.
        -- intros h R1 R2 R3 R4. split; [exact GO|]. destruct (KI h R1 R2 R3 R4) as (_ & I). rewrite C in I. destruct I as [I|I]; [|exact I].
           injection I as ->. cbn [disp set_code] in R4. congruence.
    + injection EC as <- <-. eexists. split; [reflexivity|]. apply p_dead; auto.
  - injection EC as <- <-. cbn [exec]. cbn [alive set_code]. rewrite A. eexists. split; [reflexivity|]. cbn [file set_code]. rewrite F. apply p_post with p; auto.
    + apply ok_mono with s; auto. cbn [code set_code app]. apply ok_unl with r; auto.
    + intros h R1 R2 R3 R4. destruct (KI h R1 R2 R3 R4) as (G & I). split; [exact G|]. rewrite C in I. destruct I as [I|I]; [discriminate|]. right. right. exact I.
  - injection EC as <- <-. eexists. split; [reflexivity|].
    assert (SUB : forall f, In f (unlink q (files s)) -> In f (files s)) by (intros f I; apply in_unlink in I; tauto). apply p_post with p; auto.
    + cbn [code set_files set_code]. apply ok_walk with r; auto.
      * intros d E. apply ok_mono with s; auto.
      * split; [|intros f []]. intros f I J. cbn [pids files set_files set_code] in *. rewrite P in I. destruct I as [<-|[]]. apply in_unlink in J. destruct J as (_ & J). congruence.
    + intros h R1 R2 R3 R4. destruct (KI h R1 R2 R3 R4) as (G & I). split; [intros f I1 I2; exact (G f I1 (SUB f I2))|]. rewrite C in I. destruct I as [I|I]; [discriminate|exact I].
  - injection EC as <- <-. cbn [exec]. cbn [alive half set_code reg files]. rewrite A, HF. cbn [andb negb]. destruct (nth_error (reg s) n) as [f|] eqn:NE.
    + eexists. split; [reflexivity|].
      assert (SUB : forall x, In x (unlink f (files s)) -> In x (files s)) by (intros x I; apply in_unlink in I; tauto). apply p_post with p; auto.
      * cbn [code set_files set_code]. apply ok_walk with r; auto.
        -- intros d E. apply ok_mono with s; auto.
        -- destruct GO as (G1 & G2). split; intros x I J; cbn [pids reg files set_files set_code] in *; apply in_unlink in J; destruct J as (J1 & J2).
           ++ exact (G1 x I J1).
           ++ destruct (firstn_S _ _ _ NE x I) as [I2| ->]; [exact (G2 x I2 J1)|congruence].
      * intros h R1 R2 R3 R4. destruct (KI h R1 R2 R3 R4) as (G & I). split; [intros x I1 I2; exact (G x I1 (SUB x I2))|]. rewrite C in I. destruct I as [I|I]; [discriminate|right; exact I].
    + eexists. split; [reflexivity|]. assert (G : gone s).
      { destruct GO as (G1 & G2). intros x I. apply in_app_or in I. destruct I as [I|I]; [auto|]. apply G2. rewrite firstn_all2; [exact I|]. apply nth_error_None. exact NE. }
      apply p_post with p; auto.
      * apply ok_mono with s; auto. cbn [code set_code]. apply after_exits with r; auto.
      * intros h R1 R2 R3 R4. split; [exact G|]. destruct (KI h R1 R2 R3 R4) as (_ & I). rewrite C in I. destruct I as [I|I]; [discriminate|exact I].
  - injection EC as <- <-. eexists. split; [reflexivity|]. apply p_post with p; auto.
    + apply ok_mono with s; auto.
    + intros h R1 R2 R3 R4. cbn [disp set_disp set_code] in R4. unfold give in R4. destruct (h =? g); [discriminate|]. destruct (KI h R1 R2 R3 R4) as (G & I). split; [exact G|].
      rewrite C in I. destruct I as [I|I]; [discriminate|exact I].
Qed.
Lemma once_cons : forall o ops, once (o :: ops) -> (is_reg o = true -> noreg ops) /\ once ops.
Proof.
  intros o ops H. unfold once, noreg in *. cbn [filter] in H. destruct (is_reg o); cbn [length] in H; split; auto; try discriminate; [|lia].
  intros _. destruct (filter is_reg ops); [reflexivity|cbn [length] in H; lia].
Qed.
Lemma rest_half : forall s ops c, rest s ops c -> half s = true -> exists f, c = IPush2 f :: flat_map compile ops ++ [IDone].
Proof. intros s ops c [(E & _)|(_ & R)] H; [congruence|exact R]. Qed.
Lemma phase_step : forall s e, Phase s -> hands s -> calm s e -> step s e = Diverge \/ exists s', step s e = Ok s' /\ Phase s'.
Proof.
  intros s e H HS CL. unfold step. destruct (over s) eqn:OV; [auto|]. destruct e as [|g].
  - destruct H as [ops O P F A X R V|p ops O P F A HF C V|p ops m O P F A HF C M X D V|p F P A X K KI V|A F G C V|P F X C V|O G]; [| | | | | |congruence].
    + destruct R as [(HF & R)|(HF & f & R)].
      * destruct ops as [|[q|f|f] ops].
        -- rewrite R. right. eexists. split; [reflexivity|]. cbn [atx set_code]. rewrite X. apply p_none; auto.
        -- rewrite R, ops_cons. cbn [compile app exec]. right. cbn [files set_code]. destruct (existsb (Nat.eqb q) (files s)); (eexists; split; [reflexivity|]).
           ++ apply p_none; auto.
           ++ apply p_new with q ops; auto. { apply (once_cons _ _ O). reflexivity. }
        -- rewrite R, ops_cons. right. eexists. split; [reflexivity|]. apply p_pre with ops; auto. right. split; [reflexivity|]. exists f. reflexivity.
        -- rewrite R, ops_cons. right. eexists. split; [reflexivity|]. apply p_pre with ops; auto. left. split; [exact HF|reflexivity].
      * rewrite R. right. eexists. split; [reflexivity|]. apply p_pre with ops; auto. left. split; reflexivity.
    + rewrite C. right. eexists. split; [reflexivity|]. apply p_mid with p ops (IAtExit :: map IReg registered); [exact O| |exact F|exact A|exact HF|reflexivity| | | |exact V].
      * cbn [pids set_code]. rewrite P. reflexivity.
      * intros i [<-|I]; [auto|]. apply in_map_iff in I. destruct I as (g & <- & _). eauto.
      * right. left. reflexivity.
      * intros g I _. right. right. apply in_map. exact I.
    + rewrite C. destruct m as [|i m]; cbn [app].
      * right. eexists. split; [reflexivity|]. apply p_post with p; auto.
        -- destruct X as [X|[]]. exact X.
        -- apply ok_ops with ops; auto. left. split; [exact HF|reflexivity].
        -- intros g R1 R2 R3 R4. destruct (fatal_reg g R1 R2 R3) as (I & CA). destruct (D g I CA) as [Q|[]]. exfalso. cbn [disp set_code] in R4. congruence.
      * destruct (M i (or_introl eq_refl)) as [->|(g & ->)].
        -- right. eexists. split; [reflexivity|]. apply p_mid with p ops m; [exact O|exact P|exact F|exact A|exact HF|reflexivity| | | |exact V]. { intros j J. apply M. right. exact J. } { left. cbn [atx]. lia. }
           intros g I CA. destruct (D g I CA) as [Q|[Q|Q]]; [auto|discriminate|auto].
        -- right. eexists. split; [reflexivity|]. apply p_mid with p ops m; [exact O|exact P|exact F|exact A|exact HF|reflexivity| | | |exact V]. { intros j J. apply M. right. exact J. } { destruct X as [X|[X|X]]; [auto|discriminate|auto]. }
           intros h I CA. cbn [disp set_disp set_code]. destruct (D h I CA) as [Q|[Q|Q]]; [|injection Q as ->|auto].
           ++ left. destruct (catchable g); [|exact Q]. unfold give. destruct (h =? g); auto.
           ++ left. rewrite CA. unfold give. rewrite Nat.eqb_refl. reflexivity.
    + destruct (code s) as [|i c] eqn:C; [auto|]. right. apply post_step with p; auto.
    + destruct C as [C|C]; rewrite C; right; (eexists; split; [reflexivity|]).
      * apply p_dead; auto.
      * apply p_over; [reflexivity|]. intros _. exact G.
    + destruct C as [C|[C|(A & [C|C])]]; rewrite C; right; (eexists; split; [reflexivity|]).
      * apply p_none; auto. right. left. cbn [code set_code atx]. rewrite X. reflexivity.
      * apply p_none; auto.
      * apply p_none; auto.
      * apply p_over; [reflexivity|]. intros N. exfalso. exact (N P).
  - right. eexists. split; [reflexivity|]. destruct CL as (R1 & R2 & R3 & R4 & R5).
    destruct H as [ops O P F A X R V|p ops O P F A HF C V|p ops m O P F A HF C M X D V|p F P A X K KI V|A F G C V|P F X C V|O G]; try congruence.
    apply deliver_ok with p; auto.
    intros D FT. exact (proj1 (KI g R1 R2 FT D)).
Qed.
Lemma calmly_phase : forall fs ops s, once ops -> calmly fs ops s -> Phase s /\ hands s.
Proof.
  intros fs ops s O C. induction C as [|s e s' C IH CL E].
  - split; [|intros _ g D; discriminate]. apply p_pre with ops; auto. left. split; reflexivity.
  - destruct IH as (H & HS). split.
    + destruct (phase_step s e H HS CL) as [Q|(s2 & Q & H2)]; congruence.
    + apply hands_step with s e; auto. apply phase_free; auto. unfold step in E. destruct (over s); [discriminate|reflexivity].
Qed.

(** ** Theorems *)
(** Nothing undefined happens, whatever signals come. *)
Theorem C126_defined : forall fs ops s e, once ops -> calmly fs ops s -> calm s e -> step s e <> UB /\ step s e <> Abort.
Proof. intros fs ops s e O C CL. destruct (calmly_phase fs ops s O C) as (H & HS). destruct (phase_step s e H HS CL) as [Q|(s2 & Q & _)]; rewrite Q; split; discriminate. Qed.
Print Assumptions C126_defined.
(** When a process that made its pid file is over, however it ended, the pid file and all files registered are gone. *)
Theorem C126_removed : forall fs ops s, once ops -> calmly fs ops s -> over s = true -> pids s <> [] -> forall f, In f (pids s) \/ In f (reg s) -> ~ In f (files s).
Proof.
  intros fs ops s O C OV N f I. destruct (calmly_phase fs ops s O C) as (H & HS).
  destruct H as [ops' O' P F A X R V|p ops' O' P F A HF C' V|p ops' m O' P F A HF C' M X D V|p F P A X K KI V|A F G C' V|P F X C' V|O' G]; try congruence.
  apply (G N). apply in_or_app. exact I.
Qed.
Print Assumptions C126_removed.

(** *** Other files *)
Fixpoint wfc (ps : list nat) (c : list instr) : Prop :=
  match c with
  | [] => True
  | ICreate p :: c => wfc (p :: ps) c
  | ISetFile p :: c => In p ps /\ wfc ps c
  | IUnlink f :: c => In f ps /\ wfc ps c
  | _ :: c => wfc ps c
  end.
Lemma wfc_mono : forall c ps ps', (forall p, In p ps -> In p ps') -> wfc ps c -> wfc ps' c.
Proof.
  induction c as [|i c IH]; intros ps ps' S H; [exact Logic.I|]. destruct i; cbn [wfc] in *; try (exact (IH ps ps' S H)).
  - apply (IH (p :: ps)); auto. intros q [<-|Q]; [left; reflexivity|right; auto].
  - destruct H as (H1 & H2). split; [auto|exact (IH ps ps' S H2)].
  - destruct H as (H1 & H2). split; [auto|exact (IH ps ps' S H2)].
Qed.
Lemma wfc_exits : forall k ps c, wfc ps c -> wfc ps (repeat IExit k ++ c).
Proof. induction k as [|k IH]; intros ps c H; cbn [repeat app wfc]; auto. Qed.
Lemma wfc_regs : forall l ps c, wfc ps c -> wfc ps (map IReg l ++ c).
Proof. induction l as [|g l IH]; intros ps c H; cbn [map app wfc]; auto. Qed.
Lemma wfc_block : forall l p ps c, (forall ps, wfc ps c) -> wfc ps (([IStat p; ICreate p; IAtExit] ++ map IReg l ++ [ISetFile p]) ++ c).
Proof. intros l p ps c H. cbn [app wfc]. rewrite <- app_assoc. apply wfc_regs. cbn [app wfc]. split; [left; reflexivity|apply H]. Qed.
Lemma wfc_start : forall ops ps, wfc ps (flat_map compile ops ++ [IDone]).
Proof.
  induction ops as [|o ops IH]; intros ps; [exact Logic.I|]. rewrite ops_cons. destruct o as [p|f|f].
  - exact (wfc_block registered p ps _ IH).
  - exact (IH ps).
  - exact (IH ps).
Qed.
Record Only (fs : list nat) (s : state) : Prop := O_ {
  o_files : forall f, In f fs -> ~ In f (pids s) -> ~ In f (reg s) -> In f (files s);
  o_file : forall p, file s = Some p -> In p (pids s);
  o_code : wfc (pids s) (code s) }.
Lemma only_deliver : forall fs s g, Only fs s -> Only fs (deliver s g).
Proof.
  intros fs s g [A B C]. unfold deliver. destruct (disp s g); [destruct (fatal g)| |]; constructor; auto; try exact Logic.I.
  cbn [code set_code pids]. unfold handler. cbn [app wfc]. rewrite <- app_assoc. apply wfc_exits. exact C.
Qed.
Lemma only_step : forall fs s e s', Only fs s -> step s e = Ok s' -> Only fs s'.
Proof.
  intros fs s e s' H E. unfold step in E. destruct (over s); [discriminate|]. destruct e as [|g]; [|injection E as <-; apply only_deliver; auto].
  destruct (code s) as [|i c] eqn:CD; [discriminate|]. destruct H as [A B C]. rewrite CD in C.
  destruct i; cbn [exec] in E; cbn [wfc] in C.
  - cbn [files set_code] in E. destruct (existsb (Nat.eqb p) (files s)); injection E as <-; constructor; auto. exact Logic.I.
  - injection E as <-. constructor.
    + intros f I N1 N2. cbn [files pids reg set_code] in *. apply in_or_app. left. apply A; auto. intros Q. apply N1. apply in_or_app. auto.
    + intros q Q. cbn [file pids set_code] in *. apply in_or_app. left. auto.
    + cbn [code pids set_code]. apply (wfc_mono c (p :: pids s)); [|exact C]. intros q [<-|Q]; apply in_or_app; [right; left; reflexivity|left; exact Q].
  - injection E as <-. constructor; auto.
  - injection E as <-. constructor; auto.
  - injection E as <-. destruct C as (C1 & C2). constructor; auto. intros q Q. cbn [file] in Q. injection Q as <-. exact C1.
  - injection E as <-. constructor; auto.
  - injection E as <-. constructor; auto. intros h I N1 N2. cbn [files pids reg set_reg set_code] in *. apply A; auto. intros Q. apply N2. apply in_or_app. auto.
  - injection E as <-. constructor; auto. intros h I N1 N2. cbn [files pids reg set_files set_code] in *. apply in_or_app. left. auto.
  - injection E as <-. constructor; auto. cbn [code pids set_code]. apply wfc_exits. exact Logic.I.
  - cbn [alive set_code] in E. destruct (alive s); [|discriminate]. injection E as <-. constructor; auto. cbn [code pids file set_code].
    destruct (file s) as [p|] eqn:F; cbn [app wfc]; auto.
  - injection E as <-. destruct C as (C1 & C2). constructor; auto. intros h I N1 N2. cbn [files pids reg set_files set_code] in *. apply in_unlink. split; [auto|congruence].
  - cbn [alive half reg files set_code] in E. destruct (alive s && negb (half s)); [|discriminate]. destruct (nth_error (reg s) n) as [f|] eqn:NE; injection E as <-; constructor; auto.
    intros h I N1 N2. cbn [files pids reg set_files set_code] in *. apply in_unlink. split; [auto|]. intros ->. apply N2. eapply nth_error_In. exact NE.
  - injection E as <-. constructor; auto.
  - injection E as <-. constructor; auto.
  - injection E as <-. apply only_deliver. constructor; auto.
  - injection E as <-. constructor; auto. intros q Q. discriminate.
  - injection E as <-. constructor; auto.
  - injection E as <-. constructor; auto. exact Logic.I.
Qed.
(** Other files are left alone by any process, also one that finds another instance, whenever signals come. *)
Theorem C126_only : forall fs ops es s f, run (start fs ops) es = Ok s -> In f fs -> ~ In f (pids s) -> ~ In f (reg s) -> In f (files s).
Proof.
  intros fs ops es s f R. assert (H : Only fs (start fs ops)). { constructor; auto; [intros p Q; discriminate|]. apply wfc_start. }
  revert H R. generalize (start fs ops). induction es as [|e es IH]; intros s0 H R; cbn [run] in R.
  - injection R as <-. exact (o_files fs s0 H f).
  - apply bind_ok in R. destruct R as (s1 & E & R). apply (IH s1); auto. apply only_step with s0 e; auto.
Qed.
Print Assumptions C126_only.

(** *** While the program runs *)
Fixpoint plain (c : list instr) : Prop :=
  match c with [] => True | (IExit | IUnlink _ | IWalk _ | ISetIgn _ | ISetDfl _ | IKill _ | IFreeSelf | IFreeSig | IEnd) :: _ => False | _ :: c => plain c end.
Lemma plain_block : forall l p c, plain c -> plain (([IStat p; ICreate p; IAtExit] ++ map IReg l ++ [ISetFile p]) ++ c).
Proof. intros l p c H. cbn [app plain]. rewrite <- app_assoc. induction l as [|g l IH]; cbn [map app plain]; auto. Qed.
Lemma plain_start : forall ops, plain (flat_map compile ops ++ [IDone]).
Proof.
  induction ops as [|o ops IH]; [exact Logic.I|]. rewrite ops_cons. destruct o as [p|f|f].
  - exact (plain_block registered p _ IH).
  - exact IH.
  - exact IH.
Qed.
Definition late (i : instr) : Prop := match i with IStat _ | IDone => False | _ => True end.
Lemma late_exits : forall k t, Forall late t -> Forall late (repeat IExit k ++ t).
Proof. induction k as [|k IH]; intros t H; cbn [repeat app]; auto. constructor; [exact Logic.I|auto]. Qed.
Lemma late_deliver : forall s g, Forall late (code s) -> Forall late (code (deliver s g)).
Proof.
  intros s g H. unfold deliver. destruct (disp s g); [destruct (fatal g)| |]; cbn [finish code set_code]; auto. unfold handler. cbn [app]. rewrite <- app_assoc.
  constructor; [exact Logic.I|]. apply late_exits. constructor; [exact Logic.I|]. constructor; [exact Logic.I|exact H].
Qed.
Lemma kept : forall es s s', plain (code s) /\ (forall p, In p (pids s) -> In p (files s)) \/ Forall late (code s) -> (forall e, In e es -> e = Tick) -> run s es = Ok s' ->
  plain (code s') /\ (forall p, In p (pids s') -> In p (files s')) \/ Forall late (code s').
Proof.
  induction es as [|e es IH]; intros s s' H T R; cbn [run] in R; [injection R as <-; exact H|].
  apply bind_ok in R. destruct R as (s1 & E & R). apply (IH s1); auto; [|intros e' I; apply T; right; exact I]. rewrite (T e (or_introl eq_refl)) in E. clear IH T R.
  unfold step in E. destruct (over s); [discriminate|]. destruct (code s) as [|i c] eqn:CD; [discriminate|].
  destruct H as [(PL & F)|N].
  - destruct i; cbn [plain] in PL; try contradiction; cbn [exec] in E.
    + cbn [files set_code] in E. destruct (existsb (Nat.eqb p) (files s)); injection E as <-; left; split; auto. exact Logic.I.
    + injection E as <-. left. split; [exact PL|]. intros q Q. cbn [pids files set_code] in *. apply in_app_or in Q. apply in_or_app. destruct Q as [Q|Q]; auto.
    + injection E as <-. left. split; auto.
    + injection E as <-. left. split; auto.
    + injection E as <-. left. split; auto.
    + injection E as <-. left. split; auto.
    + injection E as <-. left. split; auto.
    + injection E as <-. left. split; auto. intros q Q. cbn [files set_files set_code]. apply in_or_app. left. auto.
    + injection E as <-. right. cbn [code set_code]. apply late_exits. repeat (constructor; [exact Logic.I|]). constructor.
  - right. inversion N as [|i0 c0 L N1]; subst. destruct i; cbn [late] in L; try contradiction; cbn [exec] in E; try (injection E as <-; exact N1).
    + cbn [alive set_code file code] in E. destruct (alive s); [|discriminate]. injection E as <-. cbn [code set_code]. destruct (file s); cbn [app];
      repeat (constructor; [exact Logic.I|]); exact N1.
    + cbn [alive half reg files set_code] in E. destruct (alive s && negb (half s)); [|discriminate]. destruct (nth_error (reg s) n); injection E as <-; [|exact N1].
      cbn [code set_code set_files]. constructor; [exact Logic.I|exact N1].
    + injection E as <-. apply late_deliver. exact N1.
    + injection E as <-. constructor.
Qed.
(** As long as no signal comes and the program has not begun to end, its pid file is there. *)
Theorem C126_kept : forall fs ops es s p, run (start fs ops) es = Ok s -> (forall e, In e es -> e = Tick) -> In IDone (code s) -> In p (pids s) -> In p (files s).
Proof.
  intros fs ops es s p R T D I. destruct (kept es (start fs ops) s) as [(_ & F)|N]; auto.
  - left. split; [apply plain_start|]. intros q [].
  - exfalso. rewrite Forall_forall in N. exact (N IDone D).
Qed.
Print Assumptions C126_kept.

(** *** A signal ends the process *)
Definition same (s s' : state) : Prop := over s' = over s /\ alive s' = alive s /\ half s' = half s /\ reg s' = reg s /\ file s' = file s /\ disp s' = disp s.
Definition reach (s s' : state) : Prop := exists n, run s (repeat Tick n) = Ok s'.
Lemma reach_step : forall s i c s1 s2, over s = false -> code s = i :: c -> exec (set_code s c) i = Ok s1 -> reach s1 s2 -> reach s s2.
Proof. intros s i c s1 s2 O C E (n & R). exists (S n). cbn [repeat run]. unfold step. rewrite O, C, E. cbn [bind]. exact R. Qed.
Lemma reach_trans : forall s s1 s2, reach s s1 -> reach s1 s2 -> reach s s2.
Proof.
  intros s s1 s2 (n & R) H. revert s R. induction n as [|n IH]; intros s R; cbn [repeat run] in R; [injection R as <-; exact H|].
  apply bind_ok in R. destruct R as (s' & E & R). destruct (IH s' R) as (m & M). exists (S m). cbn [repeat run]. rewrite E. exact M.
Qed.
Lemma same_trans : forall a b c, same a b -> same b c -> same a c.
Proof. intros a b c (A1 & A2 & A3 & A4 & A5 & A6) (B1 & B2 & B3 & B4 & B5 & B6). unfold same. rewrite B1, B2, B3, B4, B5, B6. auto 10. Qed.
Lemma reach_walk : forall d s n c, length (reg s) - n = d -> over s = false -> alive s = true -> half s = false -> code s = IWalk n :: c -> exists s', reach s s' /\ code s' = c /\ same s s'.
Proof.
  induction d as [|d IH]; intros s n c L O A HF C.
  - exists (set_code s c). split; [|split; [reflexivity|unfold same; auto 10]]. eapply reach_step; eauto; [|exists 0; reflexivity]. cbn [exec set_code alive half reg]. rewrite A, HF. cbn [andb negb].
    rewrite (proj2 (nth_error_None (reg s) n)) by lia. reflexivity.
  - destruct (nth_error (reg s) n) as [f|] eqn:N; [|apply nth_error_None in N; lia].
    destruct (IH (set_code (set_files (set_code s c) (unlink f (files s))) (IWalk (S n) :: c)) (S n) c) as (s' & R & C' & S'); auto.
    + cbn [reg set_code set_files]. lia.
    + exists s'. split; [|split; [exact C'|]].
      * eapply reach_step; eauto. cbn [exec set_code alive half reg files code]. rewrite A, HF. cbn [andb negb]. rewrite N. reflexivity.
      * exact S'.
Qed.
Lemma reach_exit : forall s c, over s = false -> alive s = true -> half s = false -> code s = IExit :: c -> exists s', reach s s' /\ code s' = c /\ same s s'.
Proof.
  intros s c O A HF C. destruct (file s) as [p|] eqn:F.
  - set (s1 := set_code (set_files s (unlink p (files s))) (IWalk 0 :: c)). destruct (reach_walk _ s1 0 c eq_refl O A HF eq_refl) as (s' & R & C' & S').
    exists s'. split; [|split; [exact C'|exact S']]. eapply reach_step; [exact O|exact C| |]. { cbn [exec set_code alive file code]. rewrite A, F. reflexivity. }
    eapply reach_step; [exact O|reflexivity|reflexivity|exact R].
  - set (s1 := set_code s (IWalk 0 :: c)). destruct (reach_walk _ s1 0 c eq_refl O A HF eq_refl) as (s' & R & C' & S').
    exists s'. split; [|split; [exact C'|exact S']]. eapply reach_step; [exact O|exact C| |exact R]. cbn [exec set_code alive file code]. rewrite A, F. reflexivity.
Qed.
Lemma reach_exits : forall k s c, over s = false -> alive s = true -> half s = false -> code s = repeat IExit k ++ c -> exists s', reach s s' /\ code s' = c /\ same s s'.
Proof.
  induction k as [|k IH]; intros s c O A HF C.
  - exists s. split; [exists 0; reflexivity|]. split; [exact C|]. unfold same; auto 10.
  - destruct (reach_exit s _ O A HF C) as (s1 & R1 & C1 & S1). assert (Q := S1). destruct Q as (Q1 & Q2 & Q3 & _).
    destruct (IH s1 c (eq_trans Q1 O) (eq_trans Q2 A) (eq_trans Q3 HF) C1) as (s2 & R2 & C2 & S2). exists s2. split; [exact (reach_trans _ _ _ R1 R2)|]. split; [exact C2|exact (same_trans _ _ _ S1 S2)].
Qed.
(** A signal that is caught and by default ends a process does so, after its files have been removed (C126_removed), if no other comes. *)
Theorem C126_ends : forall s g, over s = false -> alive s = true -> half s = false -> disp s g = Caught -> fatal g = true ->
  exists n s', run s (Sig g :: repeat Tick n) = Ok s' /\ over s' = true.
Proof.
  intros s g O A HF D FT. cbn [run]. unfold step at 1. rewrite O. unfold deliver. rewrite D. cbn [bind].
  assert (X : exists s', reach (set_code s (handler s g ++ code s)) s' /\ over s' = true).
  { unfold handler. cbn [app]. rewrite <- app_assoc.
    set (s1 := set_disp (set_code s (repeat IExit (count_occ Nat.eq_dec (hs s) g) ++ [ISetDfl g; IKill g] ++ code s)) (hs s) (give (disp s) g Ign)).
    destruct (reach_exits _ s1 ([ISetDfl g; IKill g] ++ code s) O A HF eq_refl) as (s2 & R2 & C2 & (S1 & S2 & S3 & S4 & S5 & S6)).
    exists (finish (set_code (set_disp s2 (hs s2) (give (disp s2) g Dfl)) (code s))). split; [|reflexivity].
    eapply reach_step; [exact O|reflexivity|reflexivity|]. eapply reach_trans; [exact R2|].
    eapply reach_step; [rewrite S1; exact O|exact C2|reflexivity|].
    eapply reach_step; [cbn [over set_disp set_code]; rewrite S1; exact O|reflexivity| |exists 0; reflexivity].
    cbn [exec]. unfold deliver. cbn [disp set_code set_disp]. unfold give at 1. rewrite Nat.eqb_refl, FT. reflexivity. }
  destruct X as (s' & (n & R) & OV). exists n, s'. split; [exact R|exact OV].
Qed.
Print Assumptions C126_ends.

(** ** Defects *)
(** SIGWINCH, which comes when a terminal is resized: the pid file and the registered files are removed, and the program goes on. *)
Theorem C126_window_refuted : exists s s', run (start [] [RegisterProgram 1; RegisterFile 2; MakeFile 2; MakeFile 3]) (repeat Tick 68) = Ok s /\ files s = [1; 2] /\ calm s (Sig 28) /\
  run s (Sig 28 :: repeat Tick 7) = Ok s' /\ over s' = false /\ code s' = [IMake 3; IDone] /\ files s' = [].
Proof.
  eexists. eexists. split; [vm_compute; reflexivity|]. split; [reflexivity|]. split; [cbn [calm]; split; [lia|split; [lia|split; [discriminate|split; reflexivity]]]|].
  split; [vm_compute; reflexivity|]. split; [reflexivity|]. split; reflexivity.
Qed.
Print Assumptions C126_window_refuted.
(** A signal that comes between the destructors of gSelf and of gSigVec: Exit walks a list that has been destroyed. *)
Theorem C126_late_refuted : run (start [] [RegisterProgram 1]) (repeat Tick 70 ++ Sig 15 :: repeat Tick 2) = UB.
Proof. vm_compute. reflexivity. Qed.
Print Assumptions C126_late_refuted.
(** A signal that comes within RegisterFile: Exit walks a list that is half changed. *)
Theorem C126_push_refuted : run (start [] [RegisterProgram 1; RegisterFile 2]) (repeat Tick 66 ++ Sig 15 :: repeat Tick 4) = UB.
Proof. vm_compute. reflexivity. Qed.
Print Assumptions C126_push_refuted.
(** A program that registers under two names leaves the first pid file behind. *)
Theorem C126_twice_refuted : exists s, run (start [] [RegisterProgram 1; RegisterProgram 2]) (repeat Tick 140) = Ok s /\ over s = true /\ pids s = [1; 2] /\ files s = [1].
Proof. eexists. split; [vm_compute; reflexivity|]. split; [reflexivity|]. split; reflexivity. Qed.
Print Assumptions C126_twice_refuted.
(** Files registered by a program that did not register itself are not removed. *)
Theorem C126_files_refuted : exists s, run (start [] [RegisterFile 2; MakeFile 2]) (repeat Tick 7) = Ok s /\ over s = true /\ reg s = [2] /\ files s = [2].
Proof. eexists. split; [vm_compute; reflexivity|]. split; [reflexivity|]. split; reflexivity. Qed.
Print Assumptions C126_files_refuted.

(** ** Examples *)
(** A normal end: files 1 and 2 are removed, 3 and 9 stay. *)
Example C126_ex_end : exists s, run (start [9] [RegisterProgram 1; RegisterFile 2; MakeFile 2; MakeFile 3]) (repeat Tick 77) = Ok s /\ over s = true /\ files s = [9; 3].
Proof. eexists. split; [vm_compute; reflexivity|]. split; reflexivity. Qed.
(** SIGTERM, and SIGINT while it is handled. *)
Example C126_ex_signal : exists s, run (start [9] [RegisterProgram 1; RegisterFile 2; MakeFile 2; MakeFile 3]) (repeat Tick 68 ++ Sig 15 :: repeat Tick 3 ++ Sig 2 :: repeat Tick 7) = Ok s /\
  over s = true /\ files s = [9].
Proof. eexists. split; [vm_compute; reflexivity|]. split; reflexivity. Qed.
(** Another instance is running. *)
Example C126_ex_refused : exists s, run (start [1] [RegisterProgram 1; MakeFile 3]) (repeat Tick 5) = Ok s /\ over s = true /\ files s = [1] /\ pids s = [].
Proof. eexists. split; [vm_compute; reflexivity|]. split; [reflexivity|]. split; reflexivity. Qed.
Lemma calm_ticks : forall fs ops n s s', calmly fs ops s -> run s (repeat Tick n) = Ok s' -> calmly fs ops s'.
Proof.
  intros fs ops n. induction n as [|n IH]; intros s s' C R; cbn [repeat run] in R; [injection R as <-; exact C|].
  apply bind_ok in R. destruct R as (s1 & E & R). apply (IH s1); auto. apply calmly_S with s Tick; auto. exact Logic.I.
Qed.
(** A calm run with a signal after registration, which ends the process. *)
Example C126_ex_calm : exists s, calmly [9] [RegisterProgram 1; RegisterFile 2; MakeFile 2; MakeFile 3] s /\ over s = true /\ pids s = [1] /\ reg s = [2] /\ files s = [9].
Proof.
  eexists. split.
  - eapply (calm_ticks _ _ 7); [eapply calmly_S with (e := Sig 15); [eapply (calm_ticks _ _ 68); [apply calmly_0|vm_compute; reflexivity]| |vm_compute; reflexivity]|vm_compute; reflexivity].
    cbn [calm]. split; [lia|]. split; [lia|]. split; [discriminate|]. split; reflexivity.
  - split; [reflexivity|]. split; [reflexivity|]. split; reflexivity.
Qed.
