(** C110: the queue with links in its elements, used by threads that own what they write. *)
From Coq Require Import Permutation.
From Verif Require Import Base BaseFacts Monitor MonitorProofs InterthreadModel InterthreadSpec InterthreadProofs InterthreadProps ListModel ListProofs SllQueueModel.
From Verif Require ListSpec.
Local Open Scope Z_scope.

(** ** Specification *)
Definition occ (l : list Z) (v : Z) : nat := count_occ Z.eq_dec l v.
(** The pointers a history has been called with to write. *)
Definition q_offers (h : list (hevent qop qres)) : list Z :=
  flat_map (fun ev => match ev with HCall _ (QWrite v) | HCall _ (QWriteFront v) => [v] | _ => [] end) h.
(** The client's duty: what is written is one of [n] elements, and it is written again only after a call has given it
    out. *)
Definition owned (n : nat) (h : list (hevent qop qres)) : Prop :=
  (forall v, In v (q_offers h) -> 1 <= v <= Z.of_nat n) /\
  (forall p r v, h = p ++ r -> (occ (q_offers p) v <= 1 + occ (q_takes p) v)%nat).
(** The list is sound and holds the elements at the addresses [q]: linked from head to tail, counted, their sizes
    added up. *)
Definition next_of (m : list slnode) (p : nat) : option (option nat) := option_map sl_next (nth_error m p).
Definition size_of (m : list slnode) (p : nat) : Z := match nth_error m p with Some x => sl_size x | None => 0 end.
Definition is_list (st : res sdata) (q : list Z) : Prop :=
  exists m s d, st = Ok (m, s) /\ q = map (fun p => Z.of_nat (S p)) d /\ NoDup d /\ chain (next_of m) (s_head s) d /\ s_tail s = ListSpec.last_opt d /\
    s_count s = Z.of_nat (length d) /\ s_total s = ListSpec.zsum (map (size_of m) d) mod 2 ^ 32.
(** Elements with given sizes. *)
Definition heap (sizes : list Z) : list slnode := map (mkSl None) sizes.
Definition start (m : list slnode) : res sdata := Ok (m, sll_empty).

(** ** Simulation of monitors *)
Definition alike {S1 S2 Res} (R : S1 -> S2 -> Prop) (a : outcome S1 Res) (b : outcome S2 Res) : Prop :=
  match a, b with
  | OWait s c, OWait s' c' => R s s' /\ c = c'
  | OSpin s, OSpin s' => R s s'
  | ODone s r i f, ODone s' r' i' f' => R s s' /\ r = r' /\ i = i' /\ f = f'
  | _, _ => False
  end.
Definition sim {S1 S2 Op Res} (R : S1 -> S2 -> Prop) (m1 : mstate S1 Op Res) (m2 : mstate S2 Op Res) : Prop :=
  R (sh m1) (sh m2) /\ holder m1 = holder m2 /\ pcs m1 = pcs m2 /\ hist m1 = hist m2.
Lemma step_sim {S1 S2 Op Res} (R : S1 -> S2 -> Prop) (b1 : S1 -> Op -> clk -> outcome S1 Res) (b2 : S2 -> Op -> clk -> outcome S2 Res) m1 m2 ev m1' :
  sim R m1 m2 -> (forall t op e, ev = EBody t e -> nth_error (pcs m1) t = Some (PBody op) -> alike R (b1 (sh m1) op e) (b2 (sh m2) op e)) ->
  step b1 m1 ev = Some m1' -> exists m2', step b2 m2 ev = Some m2' /\ sim R m1' m2'.
Proof.
  destruct m1 as [s1 h1 l1 k1], m2 as [s2 h2 l2 k2]. intros (A & B & C & D) Al H. cbn [sh holder pcs hist] in *. subst h2 l2 k2.
  destruct ev as [t op|t|t e|t u|t|t|t]; cbn [step sh holder pcs hist] in *.
  - destruct (nth_error l1 t) as [[]|]; try discriminate. injection H as <-. eexists. split; [reflexivity|]. repeat split; exact A.
  - destruct h1; [discriminate|]. destruct (nth_error l1 t) as [[]|]; try discriminate; injection H as <-; (eexists; split; [reflexivity|]; repeat split; exact A).
  - destruct (nth_error l1 t) as [[]|] eqn:N; try discriminate. injection H as <-. specialize (Al t op e eq_refl N). eexists. split; [reflexivity|].
    destruct (b1 s1 op e), (b2 s2 op e); cbn [alike] in Al; try contradiction.
    + destruct Al as [X ->]. repeat split; exact X.
    + repeat split; exact Al.
    + destruct Al as (X & -> & -> & ->). repeat split; exact X.
  - destruct (nth_error l1 t) as [[]|] eqn:N; try discriminate.
    + destruct ins as [|g ins]; [discriminate|]. destruct (fire g u l1); [|discriminate]. injection H as <-. eexists. split; [reflexivity|]. repeat split; exact A.
    + destruct aft as [|g aft]; [discriminate|]. destruct (fire g u l1); [|discriminate]. injection H as <-. eexists. split; [reflexivity|]. repeat split; exact A.
  - destruct (nth_error l1 t) as [[]|] eqn:N; try discriminate. destruct ins; [|discriminate]. injection H as <-. eexists. split; [reflexivity|]. repeat split; exact A.
  - destruct (nth_error l1 t) as [[]|] eqn:N; try discriminate. destruct aft; [|discriminate]. injection H as <-. eexists. split; [reflexivity|]. repeat split; exact A.
  - destruct (nth_error l1 t) as [[]|] eqn:N; try discriminate. injection H as <-. eexists. split; [reflexivity|]. repeat split; exact A.
Qed.
Lemma sim_rest {S1 S2 Op Res} (R : S1 -> S2 -> Prop) (b1 : S1 -> Op -> clk -> outcome S1 Res) (b2 : S2 -> Op -> clk -> outcome S2 Res) m1 m2 :
  sim R m1 m2 -> at_rest b1 m1 -> at_rest b2 m2.
Proof.
  intros (_ & B & C & _) Q ev X. specialize (Q ev X). destruct ev as [t op|t|t e|t u|t|t|t]; cbn [step] in *; try contradiction; rewrite <- ?B, <- ?C.
  - destruct (holder m1); [reflexivity|]. destruct (nth_error (pcs m1) t) as [[]|]; try reflexivity; discriminate.
  - destruct (nth_error (pcs m1) t) as [[]|]; try reflexivity; discriminate.
  - destruct (nth_error (pcs m1) t) as [[]|]; try reflexivity; [destruct ins; [reflexivity|]|destruct aft; [reflexivity|]]; (destruct (fire s u (pcs m1)); [discriminate|reflexivity]).
  - destruct (nth_error (pcs m1) t) as [[]|]; try reflexivity. destruct ins; [discriminate|reflexivity].
  - destruct (nth_error (pcs m1) t) as [[]|]; try reflexivity. destruct aft; [discriminate|reflexivity].
Qed.

(** ** Calls that are waiting to write *)
Definition writes (op : qop) (v : Z) : nat := match op with QWrite x | QWriteFront x => if Z.eq_dec x v then 1 else 0 | _ => 0 end.
Definition pending (v : Z) (p : pc qop qres) : nat := match p with PLock op | PWoken op | PBody op | PSleep op _ => writes op v | _ => 0 end.
Lemma wake_all_sum v c (l : list (pc qop qres)) : sum (pending v) (wake_all c l) = sum (pending v) l.
Proof. unfold wake_all. induction l as [|p l IH]; [reflexivity|]. cbn [map sum]. rewrite IH. destruct (Monitor.asleep c p); [|reflexivity]. destruct p; reflexivity. Qed.
Lemma fire_sum v g u (l l' : list (pc qop qres)) : fire g u l = Some l' -> sum (pending v) l' = sum (pending v) l.
Proof.
  destruct g as [c|c]; intros F; [|cbn [fire] in F; injection F as <-; apply wake_all_sum].
  destruct (fire_sig_sum _ _ _ _ F) as [[-> _]|(t & op & N & ->)]; [reflexivity|]. pose proof (sum_upd (pending v) l t _ (PWoken op) N) as X. cbn [pending] in X. lia.
Qed.
Lemma occ_app a b v : occ (a ++ b) v = (occ a v + occ b v)%nat.
Proof. apply count_occ_app. Qed.
Lemma occ_one x v : occ [x] v = if Z.eq_dec x v then 1%nat else 0%nat.
Proof. unfold occ. cbn [count_occ]. destruct (Z.eq_dec x v); reflexivity. Qed.
Lemma rev_flat_map_occ (f : hevent qop qres -> list Z) l v : occ (flat_map f (rev l)) v = occ (flat_map f l) v.
Proof. induction l as [|x l IH]; [reflexivity|]. cbn [rev flat_map]. rewrite flat_map_app, !occ_app, IH. cbn [flat_map]. rewrite app_nil_r. lia. Qed.
Lemma offers_cons ev h v : occ (q_offers (ev :: h)) v = (match ev with HCall _ op => writes op v | _ => 0 end + occ (q_offers h) v)%nat.
Proof. unfold q_offers. cbn [flat_map]. rewrite occ_app. destruct ev as [t []| | |]; cbn [writes]; rewrite ?occ_one; reflexivity. Qed.
Lemma puts_cons ev h v : occ (q_puts (ev :: h)) v = (match ev with HDone _ op _ _ => writes op v | _ => 0 end + occ (q_puts h) v)%nat.
Proof. unfold q_puts. cbn [flat_map]. rewrite occ_app. destruct ev as [| |t [] e r|]; cbn [writes]; rewrite ?occ_one; reflexivity. Qed.
Lemma q_body_wait s op e s' c : q_body s op e = OWait s' c -> forall v, writes op v = 0%nat.
Proof. intros H v. destruct (q_wait_op _ _ _ _ _ H) as [->| ->]; reflexivity. Qed.
Lemma offered v m : reach q_body [] m -> occ (q_offers (hist m)) v = (occ (q_puts (hist m)) v + sum (pending v) (pcs m))%nat.
Proof.
  apply (reach_ind q_body (fun m => occ (q_offers (hist m)) v = (occ (q_puts (hist m)) v + sum (pending v) (pcs m))%nat)).
  - intros n. cbn [init hist pcs]. rewrite sum_repeat. cbn [pending q_offers q_puts flat_map occ count_occ]. lia.
  - clear m. intros m ev m' I H. destruct ev as [t op|t|t e|t u|t|t|t]; cbn [step] in *.
    + destruct (nth_error (pcs m) t) as [p|] eqn:N; [|discriminate]. destruct p; try discriminate. injection H as <-. cbn [hist pcs]. rewrite offers_cons, puts_cons. pose proof (sum_upd (pending v) _ _ _ (PLock op) N) as X. cbn [pending] in X. lia.
    + destruct (holder m); [discriminate|]. destruct (nth_error (pcs m) t) as [p|] eqn:N; [|discriminate]. destruct p; try discriminate; injection H as <-; cbn [hist pcs]; pose proof (sum_upd (pending v) _ _ _ (PBody op) N) as X; cbn [pending] in X; lia.
    + destruct (nth_error (pcs m) t) as [p|] eqn:N; [|discriminate]. destruct p; try discriminate. injection H as <-. destruct (q_body (sh m) op e) as [s c|s|s r ins aft] eqn:E; cbn [hist pcs]; rewrite offers_cons, puts_cons.
      * pose proof (sum_upd (pending v) _ _ _ (PSleep op c) N) as X; cbn [pending] in X; lia.
      * lia.
      * pose proof (sum_upd (pending v) _ _ _ (PIn op r ins aft) N) as X; cbn [pending] in X; lia.
    + destruct (nth_error (pcs m) t) as [p|] eqn:N; [|discriminate]. destruct p; try discriminate.
      * destruct ins as [|g ins]; [discriminate|]. destruct (fire g u (pcs m)) as [l|] eqn:F; [|discriminate]. injection H as <-. cbn [hist pcs]. rewrite <- (fire_sum v _ _ _ _ F) in I.
        destruct (fire_fwd _ _ _ _ _ _ F N) as [N2|(q & Q & _)]; [|discriminate]. pose proof (sum_upd (pending v) _ _ _ (PIn op r ins aft) N2) as X. cbn [pending] in X. lia.
      * destruct aft as [|g aft]; [discriminate|]. destruct (fire g u (pcs m)) as [l|] eqn:F; [|discriminate]. injection H as <-. cbn [hist pcs]. rewrite <- (fire_sum v _ _ _ _ F) in I.
        destruct (fire_fwd _ _ _ _ _ _ F N) as [N2|(q & Q & _)]; [|discriminate]. pose proof (sum_upd (pending v) _ _ _ (PAft op r aft) N2) as X. cbn [pending] in X. lia.
    + destruct (nth_error (pcs m) t) as [p|] eqn:N; [|discriminate]. destruct p; try discriminate. destruct ins; [|discriminate]. injection H as <-. cbn [hist pcs]. pose proof (sum_upd (pending v) _ _ _ (PAft op r aft) N) as X. cbn [pending] in X. lia.
    + destruct (nth_error (pcs m) t) as [p|] eqn:N; [|discriminate]. destruct p; try discriminate. destruct aft; [|discriminate]. injection H as <-. cbn [hist pcs]. rewrite offers_cons, puts_cons. pose proof (sum_upd (pending v) _ _ _ PIdle N) as X. cbn [pending] in X. lia.
    + destruct (nth_error (pcs m) t) as [p|] eqn:N; [|discriminate]. destruct p; try discriminate. injection H as <-. unfold setpc. cbn [hist pcs]. pose proof (sum_upd (pending v) _ _ _ (PWoken op) N) as X. cbn [pending] in X. lia.
Qed.

(** ** The bodies *)
Definition ads (d : list nat) : list Z := map (fun p => Z.of_nat (S p)) d.
Definition rel (n : nat) (sz : nat -> Z) (st : res sdata) (q : list Z) : Prop :=
  exists m s d, st = Ok (m, s) /\ length m = n /\ SInv m s sz d /\ q = ads d.
Lemma few m s sz d : SInv m s sz d -> Z.of_nat (length m) < 2 ^ 32 -> s_count s = Z.of_nat (length d).
Proof.
  intros I H. rewrite (S_count _ _ _ _ I). apply Z.mod_small. assert (length d <= length (seq 0 (length m)))%nat as L.
  { apply NoDup_incl_length; [apply (S_nodup _ _ _ _ I)|]. intros p P. apply in_seq. pose proof (S_in _ _ _ _ I p P). lia. }
  rewrite seq_length in L. lia.
Qed.
Lemma get_ok m s sz d : SInv m s sz d -> exists m' s', l_get (m, s) = Ok ((m', s'), fst (q_get (ads d))) /\ SInv m' s' sz (tl d) /\ length m' = length m.
Proof.
  intros I. destruct (sstep_refines m s sz d SPop I Logic.I) as (m' & s' & E & J & L). cbn [sstep] in E. apply bind_ok in E. destruct E as ([[m1 s1] r] & E & X). cbn [ListSpec.size_after] in J.
  apply Ok_inj in X. injection X as <- <- X. exists m1, s1. unfold l_get. cbn [fst snd]. rewrite E. cbn [bind]. destruct d as [|p d]; cbn [ListSpec.sdstep snd fst] in *; injection X as ->; (split; [reflexivity|split; [exact J|exact L]]).
Qed.
Lemma clear_ok sz d : forall m s, SInv m s sz d -> exists m' s', l_clear (length d) (m, s) = Ok ((m', s'), ads d) /\ SInv m' s' sz [] /\ length m' = length m.
Proof.
  induction d as [|p d IH]; intros m s I; cbn [length l_clear].
  - exists m, s. auto.
  - destruct (get_ok _ _ _ _ I) as (m1 & s1 & E & J & L). rewrite E. cbn [bind ads map q_get fst tl] in *. replace (Z.of_nat (S p) =? 0) with false by lia.
    destruct (IH _ _ J) as (m2 & s2 & E2 & J2 & L2). rewrite E2. cbn [bind]. exists m2, s2. split; [reflexivity|split; [exact J2|lia]].
Qed.
Lemma ads_in d v : 1 <= v -> ~ In v (ads d) -> ~ In (Z.to_nat (v - 1)) d.
Proof. intros V N X. apply N. unfold ads. apply in_map_iff. exists (Z.to_nat (v - 1)). split; [lia|exact X]. Qed.
Lemma ads_app a b : ads (a ++ b) = ads a ++ ads b.
Proof. apply map_app. Qed.
Lemma tl_ads d : snd (q_get (ads d)) = ads (tl d).
Proof. destruct d; reflexivity. Qed.

Lemma bodies_alike n sz st q op e : Z.of_nat n < 2 ^ 32 -> rel n sz st q -> (forall v, writes op v = 1%nat -> 1 <= v <= Z.of_nat n /\ ~ In v q) ->
  alike (rel n sz) (sq_body st op e) (q_body q op e).
Proof.
  intros N (m & s & d & -> & L & I & ->) W. assert (s_count s = Z.of_nat (length d)) as C by (apply (few _ _ _ _ I); rewrite L; exact N).
  destruct (get_ok _ _ _ _ I) as (m1 & s1 & G & J & L1).
  destruct op as [v|v| | | | | | |]; cbn [sq_body q_body].
  - destruct (W v) as [V1 V2]; [cbn [writes]; destruct (Z.eq_dec v v); [reflexivity|contradiction]|]. unfold l_put, node_at. replace (v <=? 0) with false by lia. cbn [bind fst snd].
    destruct (sstep_refines m s sz d (SPushBack (Z.to_nat (v - 1))) I) as (m2 & s2 & E & K & L2); [split; [lia|apply ads_in; [lia|exact V2]]|]. cbn [sstep] in E. apply bind_ok in E. destruct E as ([m3 s3] & E & X). apply Ok_inj in X. injection X as -> ->. rewrite E. cbn [bind finish alike].
    split; [|auto]. exists m2, s2, (d ++ [Z.to_nat (v - 1)]). split; [reflexivity|split; [lia|split; [exact K|]]]. rewrite ads_app. do 2 f_equal. cbn [ads map]. f_equal. lia.
  - destruct (W v) as [V1 V2]; [cbn [writes]; destruct (Z.eq_dec v v); [reflexivity|contradiction]|]. unfold l_push_front, node_at. replace (v <=? 0) with false by lia. cbn [bind fst snd].
    destruct (sstep_refines m s sz d (SPushFront (Z.to_nat (v - 1))) I) as (m2 & s2 & E & K & L2); [split; [lia|apply ads_in; [lia|exact V2]]|]. cbn [sstep] in E. apply bind_ok in E. destruct E as ([m3 s3] & E & X). apply Ok_inj in X. injection X as -> ->. rewrite E. cbn [bind finish alike].
    split; [|auto]. exists m2, s2, (Z.to_nat (v - 1) :: d). split; [reflexivity|split; [lia|split; [exact K|]]]. cbn [ads map]. f_equal. lia.
  - rewrite G. pose proof (tl_ads d) as T. destruct (q_get (ads d)) as [p r]. cbn [fst snd] in *. destruct (p =? 0); cbn [alike]; (split; [|auto]); exists m1, s1, (tl d); (split; [reflexivity|split; [lia|split; [exact J|exact T]]]).
  - unfold l_size. cbn [snd]. rewrite C. destruct d as [|p d].
    + cbn [length ads map]. change (Z.of_nat 0 =? 0) with true. cbv iota. assert (rel n sz (Ok (m, s)) []) as X by (exists m, s, []; auto). destruct e; cbn [alike]; auto.
    + cbn [length]. replace (Z.of_nat (S (length d)) =? 0) with false by lia. rewrite G. cbn [bind finish ads map q_get fst alike tl] in *. split; [|auto]. exists m1, s1, d. split; [reflexivity|split; [lia|split; [exact J|reflexivity]]].
  - rewrite G. pose proof (tl_ads d) as T. destruct (q_get (ads d)) as [p r]. cbn [fst snd bind finish alike] in *. split; [|auto]. exists m1, s1, (tl d). split; [reflexivity|split; [lia|split; [exact J|exact T]]].
  - unfold l_size. cbn [snd]. rewrite C, Nat2Z.id. destruct (clear_ok _ _ _ _ I) as (m2 & s2 & E & K & L2). rewrite E. cbn [bind finish alike]. split; [|auto]. exists m2, s2, []. split; [reflexivity|split; [lia|split; [exact K|reflexivity]]].
  - unfold l_size. cbn [snd]. rewrite C, Nat2Z.id. destruct (clear_ok _ _ _ _ I) as (m2 & s2 & E & K & L2). rewrite E. cbn [bind finish alike]. split; [|auto]. exists m2, s2, []. split; [reflexivity|split; [lia|split; [exact K|reflexivity]]].
  - cbn [alike]. split; [exists m, s, d; auto|]. unfold l_size. cbn [snd]. rewrite C, Nat2Z.id. unfold ads. rewrite map_length. auto.
  - cbn [alike]. split; [exists m, s, d; auto|]. split; [|auto]. f_equal. unfold l_size. cbn [snd]. rewrite C, (chain_head _ _ _ (S_chain _ _ _ _ I)). destruct d as [|p d]; [reflexivity|]. cbn [length hd_error addr ads map]. replace (Z.of_nat (S (length d)) =? 0) with false by lia. reflexivity.
Qed.

(** ** Executions *)
Lemma hist_grows {St Op Res} (b : St -> Op -> clk -> outcome St Res) m ev m' : step b m ev = Some m' -> exists l, hist m' = l ++ hist m.
Proof.
  destruct ev as [t op|t|t e|t u|t|t|t]; cbn [step]; intros H.
  - destruct (nth_error (pcs m) t) as [[]|]; try discriminate. injection H as <-. exists [HCall t op]. reflexivity.
  - destruct (holder m); [discriminate|]. destruct (nth_error (pcs m) t) as [[]|]; try discriminate; injection H as <-; exists []; reflexivity.
  - destruct (nth_error (pcs m) t) as [[]|]; try discriminate. injection H as <-. destruct (b (sh m) op e); cbn [hist]; [exists [HPass t op e]|exists [HPass t op e]|exists [HDone t op e r]]; reflexivity.
  - destruct (nth_error (pcs m) t) as [[]|]; try discriminate; [destruct ins; [discriminate|]|destruct aft; [discriminate|]]; (destruct (fire s u (pcs m)); [|discriminate]; injection H as <-; exists []; reflexivity).
  - destruct (nth_error (pcs m) t) as [[]|]; try discriminate. destruct ins; [|discriminate]. injection H as <-; exists []; reflexivity.
  - destruct (nth_error (pcs m) t) as [[]|]; try discriminate. destruct aft; [|discriminate]. injection H as <-; exists [HRet t r]; reflexivity.
  - destruct (nth_error (pcs m) t) as [[]|]; try discriminate. injection H as <-; exists []; reflexivity.
Qed.
Lemma owned_prefix n a b : owned n (a ++ b) -> owned n a.
Proof.
  intros [A B]. split.
  - intros v V. apply A. unfold q_offers. rewrite flat_map_app. apply in_or_app. left. exact V.
  - intros p r v ->. apply (B p (r ++ b)). symmetry. apply app_assoc.
Qed.
Lemma occ_nz l v : v <> 0 -> occ (nz l) v = occ l v.
Proof.
  intros V. unfold occ, nz. induction l as [|x l IH]; [reflexivity|]. cbn [filter count_occ]. destruct (Z.eqb_spec x 0) as [->|X]; cbn [negb count_occ].
  - rewrite IH. destruct (Z.eq_dec 0 v); [congruence|reflexivity].
  - rewrite IH. reflexivity.
Qed.
Lemma occ_perm a b v : Permutation a b -> occ a v = occ b v.
Proof. intros P. unfold occ. revert v. apply (Permutation_count_occ Z.eq_dec). exact P. Qed.
Lemma not_in_queue n m2 t op v : reach q_body [] m2 -> owned n (history m2) -> nth_error (pcs m2) t = Some (PBody op) -> writes op v = 1%nat -> 1 <= v <= Z.of_nat n /\ ~ In v (sh m2).
Proof.
  intros R [A B] N W. pose proof (offered v m2 R) as O. pose proof (sum_ge (pending v) _ _ _ N) as G. cbn [pending] in G. rewrite W in G.
  specialize (B (history m2) [] v (eq_sym (app_nil_r _))). unfold history in B. unfold q_offers, q_takes in B. rewrite !rev_flat_map_occ in B. fold (q_offers (hist m2)) in B. fold (q_takes (hist m2)) in B.
  assert (1 <= v <= Z.of_nat n) as V.
  { apply A. unfold q_offers, history. apply (count_occ_In Z.eq_dec). fold (occ (flat_map (fun ev => match ev with HCall _ (QWrite v) | HCall _ (QWriteFront v) => [v] | _ => [] end) (rev (hist m2))) v). rewrite rev_flat_map_occ. fold (q_offers (hist m2)). lia. }
  split; [exact V|]. pose proof (occ_perm _ _ v (C20_exactly_once m2 R)) as P. rewrite occ_app, !occ_nz in P by lia. unfold history, q_puts, q_takes in P. rewrite !rev_flat_map_occ in P. fold (q_puts (hist m2)) in P. fold (q_takes (hist m2)) in P.
  apply (count_occ_not_In Z.eq_dec). fold (occ (sh m2) v). lia.
Qed.
Lemma SInv0 m : SInv m sll_empty (size_of m) [].
Proof. constructor; try reflexivity; [constructor|intros p []|]. intros p P. unfold ssz, size_of. destruct (nth_error m p) eqn:E; [reflexivity|]. apply nth_error_None in E. lia. Qed.
Lemma simulated hp m : Z.of_nat (length hp) < 2 ^ 32 -> reach sq_body (start hp) m -> owned (length hp) (history m) ->
  exists m2, reach q_body [] m2 /\ sim (rel (length hp) (size_of hp)) m m2.
Proof.
  intros N R. revert m R. apply (reach_ind sq_body (fun m => owned (length hp) (history m) -> exists m2, reach q_body [] m2 /\ sim (rel (length hp) (size_of hp)) m m2)).
  - intros k _. exists (init [] k). split; [exists k, []; reflexivity|]. repeat split. exists hp, sll_empty, []. split; [reflexivity|split; [reflexivity|split; [apply SInv0|reflexivity]]].
  - intros m ev m' IH H O. destruct (hist_grows _ _ _ _ H) as (l & E). assert (owned (length hp) (history m)) as O1.
    { unfold history in *. rewrite E, rev_app_distr in O. exact (owned_prefix _ _ _ O). }
    destruct (IH O1) as (m2 & R2 & Si). pose proof Si as (A & B & C & D).
    destruct (step_sim (rel (length hp) (size_of hp)) sq_body q_body m m2 ev m' Si) as (m3 & E3 & S3); [|exact H|exists m3; split; [exact (reach_step _ _ _ _ _ R2 E3)|exact S3]].
    intros t op e -> X. apply bodies_alike; [exact N|exact A|]. intros v W. rewrite C in X. unfold history in O1. rewrite D in O1. exact (not_in_queue _ _ t op v R2 O1 X W).
Qed.
Lemma rel_is_list hp st q : Z.of_nat (length hp) < 2 ^ 32 -> rel (length hp) (size_of hp) st q -> is_list st q /\ sq_total st = Some (ListSpec.zsum (map (fun v => size_of hp (Z.to_nat (v - 1))) q) mod 2 ^ 32) /\ ~ In 0 q.
Proof.
  intros N (m & s & d & -> & L & I & ->). assert (Z.of_nat (length m) < 2 ^ 32) as N2 by (rewrite L; exact N). split; [|split].
  - exists m, s, d. split; [reflexivity|]. split; [reflexivity|]. split; [apply (S_nodup _ _ _ _ I)|]. split; [apply (S_chain _ _ _ _ I)|]. split; [apply (S_tail _ _ _ _ I)|]. split; [exact (few _ _ _ _ I N2)|].
    rewrite (S_total _ _ _ _ I). unfold ListSpec.total. do 2 f_equal. apply map_ext_in. intros p P. pose proof (S_sz _ _ _ _ I p (S_in _ _ _ _ I p P)) as Z1. unfold ssz in Z1. unfold size_of at 2. destruct (nth_error m p); [cbn [option_map] in Z1; injection Z1 as <-; reflexivity|discriminate].
  - cbn [sq_total snd]. rewrite (S_total _ _ _ _ I). unfold ListSpec.total, ads. do 3 f_equal. rewrite map_map. apply map_ext. intros p. f_equal. lia.
  - intros X. unfold ads in X. apply in_map_iff in X. destruct X as (p & X & _). lia.
Qed.

(** ** The theorems *)

(** As long as threads write elements only after a call has given them out, every execution is one of the queue of
    C20: the list is sound, it holds what that queue holds, and every call has the same effect. *)
Theorem C110_simulates hp m : Z.of_nat (length hp) < 2 ^ 32 -> reach sq_body (start hp) m -> owned (length hp) (history m) ->
  exists m2, reach q_body [] m2 /\ history m2 = history m /\ pcs m2 = pcs m /\ holder m2 = holder m /\ is_list (sh m) (sh m2).
Proof.
  intros N R O. destruct (simulated hp m N R O) as (m2 & R2 & A & B & C & D). exists m2. split; [exact R2|]. unfold history. rewrite B, C, D. split; [reflexivity|split; [reflexivity|split; [reflexivity|]]]. apply (rel_is_list hp); assumption.
Qed.
Print Assumptions C110_simulates.

(** Nothing undefined, no failed assertion, no endless loop; nothing lost or doubled; in the order written without
    write_front; totalSize is the sum of the sizes of what is there. *)
Theorem C110_contents hp m : Z.of_nat (length hp) < 2 ^ 32 -> reach sq_body (start hp) m -> owned (length hp) (history m) ->
  exists q, is_list (sh m) q /\ seq_run deque_passes deque_does [] (history m) q /\
    Permutation (q_puts (history m)) (nz (q_takes (history m)) ++ q) /\
    (no_front (history m) -> q_puts (history m) = nz (q_takes (history m)) ++ q) /\
    sq_total (sh m) = Some (ListSpec.zsum (map (fun v => size_of hp (Z.to_nat (v - 1))) q) mod 2 ^ 32).
Proof.
  intros N R O. destruct (simulated hp m N R O) as (m2 & R2 & A & B & C & D). destruct (rel_is_list _ _ _ N A) as (L & T & Z0). exists (sh m2). unfold history in *. rewrite D in *. fold (history m2) in *.
  assert (nz (sh m2) = sh m2) as E1. { unfold nz. clear -Z0. induction (sh m2) as [|x l IH]; [reflexivity|]. cbn [filter In] in *. replace (x =? 0) with false by lia. cbn [negb]. rewrite IH by tauto. reflexivity. }
  assert (nz (q_puts (history m2)) = q_puts (history m2)) as E2.
  { assert (forall v, In v (q_puts (history m2)) -> v <> 0) as Nz.
    { intros v V. pose proof (offered v m2 R2) as Of. assert (1 <= v <= Z.of_nat (length hp)) as Y; [|lia]. apply (proj1 O v). apply (count_occ_In Z.eq_dec) in V. fold (occ (q_puts (history m2)) v) in V. unfold history, q_puts in V. rewrite rev_flat_map_occ in V. fold (q_puts (hist m2)) in V.
      apply (count_occ_In Z.eq_dec). unfold history, q_offers. fold (occ (flat_map (fun ev : hevent qop qres => match ev with HCall _ (QWrite v) | HCall _ (QWriteFront v) => [v] | _ => [] end) (rev (hist m2))) v). rewrite rev_flat_map_occ. fold (q_offers (hist m2)). lia. }
    unfold nz. clear -Nz. induction (q_puts (history m2)) as [|x l IH]; [reflexivity|]. cbn [filter]. specialize (Nz x (or_introl eq_refl)) as X. replace (x =? 0) with false by lia. cbn [negb]. rewrite IH; [reflexivity|]. intros v V. apply Nz. right. exact V. }
  split; [exact L|]. split; [exact (proj1 (C20_linearizable m2 R2))|]. split; [rewrite <- E1, <- E2; exact (C20_exactly_once m2 R2)|]. split; [|exact T]. intros NF. rewrite <- E1 at 1. rewrite <- E2. exact (C20_fifo m2 R2 NF).
Qed.
Print Assumptions C110_contents.

(** When nothing moves any more and a thread still waits to read, the list is empty. *)
Theorem C110_no_lost_wakeup hp m t op c : Z.of_nat (length hp) < 2 ^ 32 -> reach sq_body (start hp) m -> owned (length hp) (history m) ->
  at_rest sq_body m -> sleeps m t op c -> is_list (sh m) [].
Proof.
  intros N R O Q Sl. destruct (simulated hp m N R O) as (m2 & R2 & Si). pose proof (sim_rest _ sq_body q_body _ _ Si Q) as Q2. destruct Si as (A & B & C & D). destruct (rel_is_list _ _ _ N A) as (L & _).
  assert (sh m2 = []) as E; [|rewrite E in L; exact L]. apply (C21_no_lost_wakeup m2 t op c); [exact R2| |exact Q2|unfold sleeps in *; rewrite <- C; exact Sl].
  intros u o I. unfold history in O. rewrite D in O. destruct O as [O _].
  assert (forall v, writes o v = 1%nat -> 1 <= v <= Z.of_nat (length hp)) as X.
  { intros v W. apply O. unfold q_offers. apply in_flat_map. exists (HCall u o). split; [apply in_rev; rewrite rev_involutive; exact I|]. destruct o; cbn [writes] in W; try discriminate; destruct (Z.eq_dec v0 v); try discriminate; subst; left; reflexivity. }
  destruct o as [v|v| | | | | | |]; cbn [not_null]; try exact Logic.I; specialize (X v); cbn [writes] in X; (destruct (Z.eq_dec v v) as [_|]; [|contradiction]); specialize (X eq_refl); lia.
Qed.
Print Assumptions C110_no_lost_wakeup.

(** A list that is empty can be used like a new one: it has neither head nor tail, and the counts are 0. *)
Theorem C110_empty st : is_list st [] -> exists m, st = Ok (m, sll_empty).
Proof.
  intros (m & s & d & -> & E & _ & C & T & K & S0). symmetry in E. apply map_eq_nil in E. subst d. exists m. destruct s as [h t k z]. cbn in *. subst. reflexivity.
Qed.
Print Assumptions C110_empty.

(** Calls of one thread at a time; [fires]: how many signals, with nobody asleep. *)
Definition do_op (t : nat) (op : qop) (fires : nat) : list (event qop) := [ECall t op; ELock t; EBody t Early; EUnlock t] ++ repeat (EFire t None) fires ++ [EReturn t].
(** Defects without the duty: an element written again while it is the only one fails an assertion at the next read;
    while it is the first of two, the other is lost, the count stays at 2 and clear(), which the destructor calls,
    never ends; NULL is used as an element. *)
Theorem C110_twice_refuted :
  (exists m, run sq_body (init (start (heap [5])) 1) (do_op 0 (QWrite 1) 1 ++ do_op 0 (QWrite 1) 1 ++ [ECall 0%nat QReadNB; ELock 0%nat; EBody 0%nat Early]) = Some m /\ sh m = Abort) /\
  (exists m m2, run sq_body (init (start (heap [5; 6])) 1) (do_op 0 (QWrite 1) 1 ++ do_op 0 (QWrite 2) 1 ++ do_op 0 (QWrite 1) 1 ++ do_op 0 QReadNB 0 ++ do_op 0 QReadNB 0 ++ do_op 0 QSize 0) = Some m /\
     q_takes (history m) = [1; 0] /\ In (HRet 0%nat (RCount 2)) (hist m) /\ run sq_body m [ECall 0%nat QClear; ELock 0%nat; EBody 0%nat Early] = Some m2 /\ sh m2 = Diverge) /\
  (exists m, run sq_body (init (start (heap [5])) 1) [ECall 0%nat (QWrite 0); ELock 0%nat; EBody 0%nat Early] = Some m /\ sh m = UB).
Proof. split; [|split]; eexists; [|eexists|]; (split; [vm_compute; reflexivity|]); [reflexivity| |reflexivity]. split; [reflexivity|]. split; [vm_compute; tauto|]. split; [vm_compute; reflexivity|reflexivity]. Qed.
Print Assumptions C110_twice_refuted.

(** ** Examples *)
(** Thread 1 sleeps in read(); thread 0 writes elements 1 and 2; thread 1 gets element 1 and writes it back. *)
Definition ex_run : list (event qop) :=
  [ECall 1%nat QRead; ELock 1%nat; EBody 1%nat Early; ECall 0%nat (QWrite 1); ELock 0%nat; EBody 0%nat Early; EUnlock 0%nat; EFire 0%nat (Some 1%nat); EReturn 0%nat] ++
  do_op 0 (QWrite 2) 1 ++ [ELock 1%nat; EBody 1%nat Early; EUnlock 1%nat; EReturn 1%nat] ++ do_op 1 (QWrite 1) 1.
Example C110_ex : exists m, run sq_body (init (start (heap [5; 6])) 2) ex_run = Some m /\ q_puts (history m) = [1; 2; 1] /\ q_takes (history m) = [1] /\ sq_total (sh m) = Some 11 /\
  sh m = Ok ([mkSl None 5; mkSl (Some 0%nat) 6], mkSll (Some 1%nat) (Some 0%nat) 2 11) /\ is_list (sh m) [2; 1].
Proof.
  eexists. split; [vm_compute; reflexivity|]. split; [reflexivity|]. split; [reflexivity|]. split; [reflexivity|]. split; [reflexivity|].
  eexists. eexists. exists [1%nat; 0%nat]. split; [reflexivity|]. split; [reflexivity|]. split; [repeat constructor; cbn; intuition discriminate|]. split; [|repeat split; reflexivity]. split; [reflexivity|]. exists (Some 0%nat). split; [reflexivity|]. split; [reflexivity|]. exists None. split; reflexivity.
Qed.
(** The duty is kept there: in every prefix an element has been offered at most once more than it was given out. *)
Fixpoint ok_prefixes (n : nat) (done rest : list (hevent qop qres)) : bool :=
  forallb (fun v => Nat.leb (occ (q_offers done) v) (1 + occ (q_takes done) v)) (q_offers done) && match rest with [] => true | e :: r => ok_prefixes n (done ++ [e]) r end.
Lemma ok_prefixes_sound n : forall rest done, ok_prefixes n done rest = true -> forall p r v, rest = p ++ r -> (occ (q_offers (done ++ p)) v <= 1 + occ (q_takes (done ++ p)) v)%nat.
Proof.
  assert (forall h v, forallb (fun v => Nat.leb (occ (q_offers h) v) (1 + occ (q_takes h) v)) (q_offers h) = true -> (occ (q_offers h) v <= 1 + occ (q_takes h) v)%nat) as One.
  { intros h v F. destruct (in_dec Z.eq_dec v (q_offers h)) as [I|I].
    - rewrite forallb_forall in F. specialize (F v I). apply Nat.leb_le in F. exact F.
    - apply (count_occ_not_In Z.eq_dec) in I. unfold occ at 1. rewrite I. lia. }
  induction rest as [|e rest IH]; intros done H p r v E; cbn [ok_prefixes] in H; apply andb_true_iff in H; destruct H as [H1 H2].
  - destruct p; [|discriminate]. rewrite app_nil_r. apply One, H1.
  - destruct p as [|x p]; [rewrite app_nil_r; apply One, H1|]. cbn [app] in E. injection E as <- E. replace (done ++ e :: p) with ((done ++ [e]) ++ p) by (rewrite <- app_assoc; reflexivity). exact (IH _ H2 p r v E).
Qed.
Example C110_ex_owned : exists m, run sq_body (init (start (heap [5; 6])) 2) ex_run = Some m /\ owned 2 (history m).
Proof.
  eexists. split; [vm_compute; reflexivity|]. split.
  - intros v V. cbn in V. lia.
  - intros p r v E. refine (ok_prefixes_sound 2 _ [] _ p r v E). vm_compute. reflexivity.
Qed.
