(** Properties C54 and C55: counters and names of the reporting table. *)
From Verif Require Import Base BaseFacts UtilsModel UtilsSpec SqlModel SqlProofs ConfigModel ConfigSpec NumProofs ReportModel ReportSpec.
Local Open Scope Z_scope.

Lemma weqb_refl_ a : weqb a a = true.
Proof. apply weqb_iff. reflexivity. Qed.
Lemma value_set m n v k : value (set m n v) k = if weqb n k then v else value m k.
Proof.
  unfold value. induction m as [|[x w] m IH]; cbn [set get].
  - destruct (weqb n k); reflexivity.
  - destruct (weqb x n) eqn:E; cbn [get].
    + apply weqb_iff in E. subst x. destruct (weqb n k); reflexivity.
    + destruct (weqb x k) eqn:F; [|exact IH]. destruct (weqb n k) eqn:G; [|reflexivity]. apply weqb_iff in F, G. subst. rewrite weqb_refl_ in E. discriminate.
Qed.
Lemma sum_set m n v k : sum (set m n v) k = sum m k + (if weqb n k then v - value m n else 0).
Proof.
  induction m as [|[x w] m IH]; cbn [set sum].
  - unfold value. cbn [get]. destruct (weqb n k); lia.
  - unfold value. cbn [get]. destruct (weqb x n) eqn:E; cbn [sum].
    + apply weqb_iff in E. subst x. destruct (weqb n k); lia.
    + rewrite IH. unfold value. lia.
Qed.
Lemma sum_app a b n : sum (a ++ b) n = sum a n + sum b n.
Proof. induction a as [|[x v] a IH]; cbn [app sum]; [lia|rewrite IH; lia]. Qed.
Lemma sum_take (m : counters) n : sum (map (fun e : list Z * Z => if 0 <? snd e then (fst e, 0) else e) m) n + sum (filter (fun e : list Z * Z => 0 <? snd e) m) n = sum m n.
Proof.
  induction m as [|[x v] m IH]; [reflexivity|]. cbn [map filter fst snd sum]. destruct (0 <? v); cbn [sum]; destruct (weqb x n); lia.
Qed.
Lemma map_snd_pair (t : nat) (m : counters) : map snd (map (fun e : list Z * Z => (t, e)) m) = m.
Proof. rewrite map_map. cbn [snd]. apply map_id. Qed.
Lemma next_spec t l e r : next t l = Some (e, r) -> exists l1 l2, l = l1 ++ (t, e) :: l2 /\ r = l1 ++ l2.
Proof.
  revert e r. induction l as [|[u x] l IH]; intros e r H; [discriminate|]. cbn [next] in H. destruct (Nat.eqb u t) eqn:E.
  - injection H as <- <-. apply Nat.eqb_eq in E. subst u. exists [], l. split; reflexivity.
  - destruct (next t l) as [[y r']|]; [|discriminate]. injection H as <- <-. destruct (IH y r' eq_refl) as (l1 & l2 & -> & ->). exists ((u, x) :: l1), l2. split; reflexivity.
Qed.
Lemma get_update d p f n : get (update d p f) n = option_map (fun v => if p n then f v else v) (get d n).
Proof.
  induction d as [|[x v] d IH]; [reflexivity|]. unfold update in *. cbn [map fst snd get]. destruct (p x) eqn:P; cbn [get]; destruct (weqb x n) eqn:E; try exact IH; apply weqb_iff in E; subst x; rewrite P; reflexivity.
Qed.
Lemma get_app d x v n : get (d ++ [(x, v)]) n = match get d n with Some w => Some w | None => if weqb x n then Some v else None end.
Proof. induction d as [|[y w] d IH]; cbn [app get]; [reflexivity|]. destruct (weqb y n); [reflexivity|exact IH]. Qed.
Lemma where_plain m p : where_name m = Ok p -> no_column m -> forall x, p x = weqb x m.
Proof.
  unfold where_name, no_column. intros H N x. destruct (existsb (Z.eqb 34) m); [discriminate|]. destruct (weqb (upper m) (lit "NAME")) eqn:E; [apply weqb_iff in E; contradiction|].
  destruct (existsb _ _); [discriminate|]. apply Ok_inj in H. subst p. reflexivity.
Qed.
Lemma weqb_sym a b : weqb a b = weqb b a.
Proof. destruct (weqb a b) eqn:E, (weqb b a) eqn:F; try reflexivity; [apply weqb_iff in E|apply weqb_iff in F]; subst; rewrite weqb_refl_ in *; discriminate. Qed.
Lemma value_le_sum (m : counters) n : Forall (fun e => 0 <= snd e) m -> 0 <= value m n <= sum m n.
Proof.
  intros H. unfold value. induction H as [|[x v] m Hv H IH]; cbn [get sum]; [lia|]. cbn [snd] in Hv.
  assert (0 <= sum m n) by lia. destruct (weqb x n); lia.
Qed.
Lemma sum_nonneg (m : counters) n : Forall (fun e => 0 <= snd e) m -> 0 <= sum m n.
Proof. intros H. pose proof (value_le_sum m n H). lia. Qed.
Lemma Forall_set (P : list Z * Z -> Prop) m n v : Forall P m -> P (n, v) -> Forall P (set m n v).
Proof.
  intros H Pn. induction H as [|[x w] m Hx H IH]; cbn [set]; [constructor; [exact Pn|constructor]|]. destruct (weqb x n) eqn:E; [apply weqb_iff in E; subst x; constructor; assumption|constructor; assumption].
Qed.
Lemma value_range (m : counters) n : Forall (fun e => no_column (fst e) /\ 0 <= snd e < 2 ^ 32) m -> 0 <= value m n < 2 ^ 32.
Proof. intros H. unfold value. induction H as [|[x v] m [_ Hv] H IH]; cbn [get]; [lia|]. cbn [snd] in Hv. destruct (weqb x n); [lia|exact IH]. Qed.

Lemma wf_step s e s' n : well_formed s -> counts n e -> rstep s e = Ok s' -> well_formed s'.
Proof.
  intros (B & I & D) C H. destruct e as [m now ok|m|m v now ok|m now ok|ok|t|t now ok]; cbn [rstep counts] in *.
  - unfold create in H. apply bind_ok in H. destruct H as (_ & _ & H). apply bind_ok in H. destruct H as (_ & _ & H). apply Ok_inj in H. subst s'. split; [|split].
    + cbn [batch]. destruct (get (batch s) m); [exact B|]. apply Forall_set; [exact B|]. cbn [fst snd]. split; [exact C|lia].
    + exact I.
    + cbn [db]. destruct ok; [|exact D]. destruct (get (db s) m); [exact D|]. apply Forall_app. split; [exact D|constructor; [cbn [snd]; lia|constructor]].
  - apply Ok_inj in H. subst s'. split; [|split; [exact I|exact D]]. cbn [incr batch]. apply Forall_set; [exact B|]. cbn [fst snd]. split; [exact C|unfold u32; lia].
  - unfold max in H. apply bind_ok in H. destruct H as (_ & _ & H). apply bind_ok in H. destruct H as (p & _ & H). apply Ok_inj in H. subst s'. split; [exact B|split; [exact I|]].
    cbn [db]. destruct ok; [|exact D]. unfold update. apply Forall_map. eapply Forall_impl; [|exact D]. intros [x w] Hw. cbn [fst snd] in *. destruct (p x); cbn [snd]; lia.
  - unfold clear in H. apply bind_ok in H. destruct H as (_ & _ & H). apply bind_ok in H. destruct H as (p & _ & H). apply Ok_inj in H. subst s'. split; [exact B|split; [exact I|]].
    cbn [db]. destruct ok; [|exact D]. unfold update. apply Forall_map. eapply Forall_impl; [|exact D]. intros [x w] Hw. cbn [fst snd] in *. destruct (p x); cbn [snd]; lia.
  - apply Ok_inj in H. subst s'. split; [exact B|split; [exact I|]]. cbn [clear_all db]. destruct ok; [|exact D]. unfold update. apply Forall_map. eapply Forall_impl; [|exact D]. intros [x w] Hw. cbn [fst snd]. lia.
  - apply Ok_inj in H. subst s'. split; [|split; [|exact D]].
    + cbn [take batch]. apply Forall_map. eapply Forall_impl; [|exact B]. intros [x w] [Hx Hw]. cbn [fst snd] in *. destruct (0 <? w); cbn [fst snd]; split; try exact Hx; lia.
    + cbn [take inflight]. apply Forall_app. split; [exact I|]. apply Forall_map. cbn [snd]. apply Forall_forall. intros x Hx. apply filter_In in Hx. rewrite Forall_forall in B. exact (B x (proj1 Hx)).
  - unfold write in H. destruct (next t (inflight s)) as [[[m k] r]|] eqn:N; [|apply Ok_inj in H; subst s'; split; [exact B|split; [exact I|exact D]]].
    apply bind_ok in H. destruct H as (_ & _ & H). apply bind_ok in H. destruct H as (p & _ & H). apply Ok_inj in H. subst s'. destruct (next_spec _ _ _ _ N) as (l1 & l2 & E & ->).
    rewrite E in I. apply Forall_app in I. destruct I as [I1 I2]. inversion I2 as [|? ? [_ Hk] I3]; subst. cbn [snd] in Hk. split; [exact B|split].
    + cbn [inflight]. apply Forall_app. split; assumption.
    + cbn [db]. destruct ok; [|exact D]. unfold update. apply Forall_map. eapply Forall_impl; [|exact D]. intros [x w] Hw. cbn [fst snd] in *. destruct (p x); cbn [snd]; lia.
Qed.
(** One event: what is stored and pending changes by the increment and the loss, nothing else. *)
Lemma step_account s e s' n : well_formed s -> counts n e -> sum (batch s) n + increments n [e] < 2 ^ 32 -> rstep s e = Ok s' ->
  stored s' n + pending s' n + loss s n e = stored s n + pending s n + increments n [e] /\ sum (batch s') n <= sum (batch s) n + increments n [e].
Proof.
  intros (B & I & D) C W H. unfold stored, pending. destruct e as [m now ok|m|m v now ok|m now ok|ok|t|t now ok]; cbn [rstep counts increments loss] in *.
  - unfold create in H. apply bind_ok in H. destruct H as (_ & _ & H). apply bind_ok in H. destruct H as (_ & _ & H). apply Ok_inj in H. subst s'. cbn [batch db inflight].
    assert (Sb : sum match get (batch s) m with Some _ => batch s | None => set (batch s) m 0 end n = sum (batch s) n).
    { destruct (get (batch s) m) as [v|] eqn:G; [reflexivity|]. rewrite sum_set. unfold value. rewrite G. destruct (weqb m n); lia. }
    rewrite Sb. assert (Sd : value (if ok then match get (db s) m with Some _ => db s | None => db s ++ [(m, 0)] end else db s) n = value (db s) n).
    { destruct ok; [|reflexivity]. destruct (get (db s) m) as [v|] eqn:G; [reflexivity|]. unfold value. rewrite get_app. destruct (get (db s) n); [reflexivity|]. destruct (weqb m n); reflexivity. }
    rewrite Sd. lia.
  - apply Ok_inj in H. subst s'. unfold incr. cbn [batch db inflight]. rewrite sum_set.
    assert (Hv : 0 <= value (batch s) m <= sum (batch s) m) by (apply value_le_sum; eapply Forall_impl; [|exact B]; intros [x w] [_ Hw]; cbn [snd] in *; lia).
    destruct (weqb m n) eqn:E; [|lia]. apply weqb_iff in E. subst m. unfold u32. rewrite Z.mod_small by lia. lia.
  - destruct C as (C1 & C2 & C3). unfold max in H. apply bind_ok in H. destruct H as (_ & _ & H). apply bind_ok in H. destruct H as (p & P & H). apply Ok_inj in H. subst s'. cbn [batch db inflight].
    assert (value (if ok then update (db s) p (fun x => Z.max x v) else db s) n = value (db s) n) as ->.
    { destruct ok; [|reflexivity]. unfold value. rewrite get_update, (where_plain m p P C1). destruct (weqb n m) eqn:E; [apply weqb_iff in E; subst; contradiction C2; reflexivity|]. destruct (get (db s) n); reflexivity. }
    lia.
  - unfold clear in H. apply bind_ok in H. destruct H as (_ & _ & H). apply bind_ok in H. destruct H as (p & P & H). apply Ok_inj in H. subst s'. cbn [batch db inflight].
    destruct ok; [|lia]. unfold value. rewrite get_update, (where_plain m p P C), (weqb_sym n m). destruct (weqb m n); destruct (get (db s) n) eqn:G; cbn [option_map]; unfold stored, value; rewrite ?G; lia.
  - apply Ok_inj in H. subst s'. unfold clear_all. cbn [batch db inflight]. destruct ok; [|lia]. unfold value. rewrite get_update. destruct (get (db s) n) as [w|] eqn:G; cbn [option_map]; unfold stored, value; rewrite ?G; lia.
  - apply Ok_inj in H. subst s'. unfold take. cbn [batch db inflight]. rewrite map_app, sum_app, map_snd_pair. pose proof (sum_take (batch s) n).
    assert (0 <= sum (filter (fun e : list Z * Z => 0 <? snd e) (batch s)) n) by (apply sum_nonneg; apply Forall_forall; intros x Hx; apply filter_In in Hx; lia). lia.
  - unfold write in H. destruct (next t (inflight s)) as [[[m k] r]|] eqn:N; [|apply Ok_inj in H; subst s'; lia].
    apply bind_ok in H. destruct H as (_ & _ & H). apply bind_ok in H. destruct H as (p & P & H). apply Ok_inj in H. subst s'. destruct (next_spec _ _ _ _ N) as (l1 & l2 & E & ->). cbn [batch db inflight].
    rewrite E in *. rewrite !map_app. cbn [map snd]. rewrite !sum_app. cbn [sum].
    apply Forall_app in I. destruct I as [_ I]. inversion I as [|? ? [Cm _] _]; subst. cbn [fst snd] in Cm. destruct ok; cbn [negb orb].
    + unfold value. rewrite get_update, (where_plain m p P Cm), (weqb_sym n m). destruct (weqb m n), (get (db s) n); cbn [option_map andb]; lia.
    + rewrite andb_true_r. destruct (weqb m n); lia.
Qed.
(** What is stored and pending is what was there plus the increments minus the losses, with
    commits of any number of threads interleaved with everything else in any way. *)
Theorem C54_accounting s l s' n : well_formed s -> Forall (counts n) l -> sum (batch s) n + increments n l < 2 ^ 32 -> rrun s l = Ok s' ->
  stored s' n + pending s' n + losses s n l = stored s n + pending s n + increments n l.
Proof.
  revert s. induction l as [|e l IH]; intros s W C B R; cbn [rrun losses increments] in *; [apply Ok_inj in R; subst s'; lia|].
  apply bind_ok in R. destruct R as (s1 & E & R). rewrite E. inversion C as [|? ? C1 C2]; subst.
  assert (Hi : increments n (e :: l) = increments n [e] + increments n l) by (destruct e; cbn [increments]; lia).
  assert (P : 0 <= increments n l) by (clear; induction l as [|e l IH]; cbn [increments]; [lia|]; destruct e; try exact IH; destruct (weqb name n); lia).
  fold (increments n (e :: l)) in *. change (match e with RIncr m => (if weqb m n then 1 else 0) + increments n l | _ => increments n l end) with (increments n (e :: l)) in *.
  destruct (step_account s e s1 n W C1 ltac:(lia) E) as [A1 A2]. specialize (IH s1 (wf_step _ _ _ _ W C1 E) C2 ltac:(lia) R). lia.
Qed.
Print Assumptions C54_accounting.
Lemma losses_nonneg s l n : well_formed s -> Forall (counts n) l -> 0 <= losses s n l.
Proof.
  revert s. induction l as [|e l IH]; intros s W C; cbn [losses]; [lia|]. inversion C as [|? ? C1 C2]; subst.
  assert (0 <= loss s n e).
  { destruct W as (B & I & D). pose proof (value_le_sum (db s) n D). unfold loss, stored. destruct e as [m now ok|m|m v now ok|m now ok|ok|t|t now ok]; try lia.
    - destruct ok; [|lia]. destruct (weqb m n); lia.
    - destruct ok; lia.
    - destruct (next t (inflight s)) as [[[m k] r]|] eqn:N; [|lia]. destruct (next_spec _ _ _ _ N) as (l1 & l2 & E & _). rewrite E in I. apply Forall_app in I. destruct I as [_ I]. inversion I as [|? ? [_ Hk] _]; subst. cbn [snd] in Hk. destruct (_ && _); lia. }
  destruct (rstep s e) as [s1| | |] eqn:E; try lia. specialize (IH s1 (wf_step _ _ _ _ W C1 E) C2). lia.
Qed.
(** No increment counts twice, whatever fails. *)
Theorem C54_never_more s l s' n : well_formed s -> Forall (counts n) l -> sum (batch s) n + increments n l < 2 ^ 32 -> rrun s l = Ok s' ->
  stored s' n + pending s' n <= stored s n + pending s n + increments n l.
Proof. intros W C B R. pose proof (C54_accounting s l s' n W C B R). pose proof (losses_nonneg s l n W C). lia. Qed.
Print Assumptions C54_never_more.
(** Every increment of a created counter counts, as long as it is not cleared and updates succeed. *)
Definition undisturbed (n : list Z) (e : revent) : Prop :=
  counts n e /\ match e with RClear m _ _ => m <> n | RClearAll _ => False | RWrite _ _ ok => ok = true | _ => True end.
Lemma created_step s e s' n : created s n -> rstep s e = Ok s' -> created s' n.
Proof.
  unfold created. intros C H. assert (U : forall p f, get (update (db s) p f) n <> None) by (intros p f; rewrite get_update; destruct (get (db s) n); [discriminate|contradiction C; reflexivity]).
  destruct e as [m now ok|m|m v now ok|m now ok|ok|t|t now ok]; cbn [rstep] in H.
  - unfold create in H. apply bind_ok in H. destruct H as (_ & _ & H). apply bind_ok in H. destruct H as (_ & _ & H). apply Ok_inj in H. subst s'. cbn [db]. destruct ok; [|exact C]. destruct (get (db s) m); [exact C|]. rewrite get_app. destruct (get (db s) n); [discriminate|contradiction C; reflexivity].
  - apply Ok_inj in H. subst s'. exact C.
  - unfold max in H. apply bind_ok in H. destruct H as (_ & _ & H). apply bind_ok in H. destruct H as (p & _ & H). apply Ok_inj in H. subst s'. cbn [db]. destruct ok; [apply U|exact C].
  - unfold clear in H. apply bind_ok in H. destruct H as (_ & _ & H). apply bind_ok in H. destruct H as (p & _ & H). apply Ok_inj in H. subst s'. cbn [db]. destruct ok; [apply U|exact C].
  - apply Ok_inj in H. subst s'. cbn [clear_all db]. destruct ok; [apply U|exact C].
  - apply Ok_inj in H. subst s'. exact C.
  - unfold write in H. destruct (next t (inflight s)) as [[[m k] r]|]; [|apply Ok_inj in H; subst s'; exact C].
    apply bind_ok in H. destruct H as (_ & _ & H). apply bind_ok in H. destruct H as (p & _ & H). apply Ok_inj in H. subst s'. cbn [db]. destruct ok; [apply U|exact C].
Qed.
Theorem C54_conserved s l s' n : well_formed s -> created s n -> Forall (undisturbed n) l -> sum (batch s) n + increments n l < 2 ^ 32 -> rrun s l = Ok s' ->
  stored s' n + pending s' n = stored s n + pending s n + increments n l.
Proof.
  intros W K U B R. assert (C : Forall (counts n) l) by (eapply Forall_impl; [|exact U]; intros e [H _]; exact H).
  rewrite <- (C54_accounting s l s' n W C B R). enough (losses s n l = 0) by lia. clear B R C s'. revert s W K. induction U as [|e l [C1 U1] U IH]; intros s W K; cbn [losses]; [reflexivity|].
  assert (loss s n e = 0) as ->.
  { unfold loss. destruct e as [m now ok|m|m v now ok|m now ok|ok|t|t now ok]; try reflexivity.
    - destruct ok; [|reflexivity]. destruct (weqb m n) eqn:E; [apply weqb_iff in E; contradiction|reflexivity].
    - destruct U1.
    - subst ok. destruct (next t (inflight s)) as [[[m k] r]|]; [|reflexivity]. unfold created in K. destruct (get (db s) n); [cbn [negb orb]; rewrite andb_false_r; reflexivity|contradiction K; reflexivity]. }
  destruct (rstep s e) as [s1| | |] eqn:E; try reflexivity. rewrite (IH s1 (wf_step _ _ _ _ W C1 E) (created_step _ _ _ _ K E)). reflexivity.
Qed.
Print Assumptions C54_conserved.
(** A commit with nothing in between moves everything pending into the database. *)
Lemma write_all_spec k : forall s t now s', well_formed s -> write_all k s t now = Ok s' -> Forall (fun e => fst e = t) (inflight s) -> (length (inflight s) <= k)%nat ->
  inflight s' = [] /\ batch s' = batch s /\ forall n, created s n -> stored s' n = stored s n + sum (map snd (inflight s)) n.
Proof.
  induction k as [|k IH]; intros s t now s' W R T L; cbn [write_all] in R.
  - apply Ok_inj in R. subst s'. destruct (inflight s); [|cbn [length] in L; lia]. repeat split. intros n _. cbn [map sum]. lia.
  - apply bind_ok in R. destruct R as (s1 & E & R). pose proof (wf_step s (RWrite t now true) s1 [] W I E) as W1. unfold write in E. destruct (inflight s) as [|[u [m v]] r] eqn:F.
    + cbn [next] in E. apply Ok_inj in E. subst s1. destruct (IH s t now s' W R ltac:(rewrite F; constructor) ltac:(rewrite F; cbn [length]; lia)) as (A & B & C). repeat split; try assumption. intros n K. rewrite (C n K), F. reflexivity.
    + pose proof (Forall_inv T) as T1. pose proof (Forall_inv_tail T) as T2. cbn [fst] in T1. subst u. cbn [next] in E. rewrite Nat.eqb_refl in E. apply bind_ok in E. destruct E as (_ & _ & E). apply bind_ok in E. destruct E as (p & P & E). apply Ok_inj in E. subst s1.
      destruct (IH _ t now s' W1 R ltac:(exact T2) ltac:(cbn [inflight length] in *; lia)) as (A & B & C). repeat split; try assumption. intros n K. cbn [map snd sum].
      rewrite (C n).
      * unfold stored. cbn [db inflight]. unfold value. rewrite get_update. destruct W as (_ & I & _). rewrite F in I. inversion I as [|? ? [Cm _] _]; subst. cbn [fst snd] in Cm. rewrite (where_plain m p P Cm), (weqb_sym n m).
        unfold created in K. destruct (get (db s) n); [|contradiction K; reflexivity]. cbn [option_map]. destruct (weqb m n); lia.
      * unfold created. cbn [db]. rewrite get_update. unfold created in K. destruct (get (db s) n); [discriminate|contradiction K; reflexivity].
Qed.
Theorem C54_commit s t now s' n : well_formed s -> inflight s = [] -> created s n -> commit s t now = Ok s' -> stored s' n = stored s n + pending s n /\ pending s' n = 0.
Proof.
  intros W F K R. unfold commit in R. pose proof (wf_step s (RTake t) (take s t) [] W I eq_refl) as W1.
  destruct (write_all_spec _ _ _ _ _ W1 R) as (A & B & C); [cbn [take inflight]; rewrite F; cbn [app]; apply Forall_map; apply Forall_forall; intros x _; reflexivity|lia|].
  assert (K1 : created (take s t) n) by exact K. specialize (C n K1). unfold pending. rewrite A, B, F. rewrite C. unfold stored. cbn [take db inflight batch]. rewrite F. cbn [app map sum]. rewrite map_snd_pair. pose proof (sum_take (batch s) n).
  assert (Z0 : sum (map (fun e : list Z * Z => if 0 <? snd e then (fst e, 0) else e) (batch s)) n = 0).
  { destruct W as (Bw & _). clear -Bw. induction Bw as [|[x v] m [_ Hv] Bw IH]; [reflexivity|]. cbn [map fst snd sum] in *. destruct (0 <? v) eqn:E; cbn [sum]; rewrite IH; destruct (weqb x n); lia. }
  lia.
Qed.
Print Assumptions C54_commit.
(** Maximising takes the larger of the stored and the given value. *)
Theorem C54_max s n v now s' : no_column n -> created s n -> max s n v now true = Ok s' -> stored s' n = Z.max (stored s n) v /\ pending s' n = pending s n /\
  forall m, m <> n -> stored s' m = stored s m.
Proof.
  intros C K H. unfold max in H. apply bind_ok in H. destruct H as (_ & _ & H). apply bind_ok in H. destruct H as (p & P & H). apply Ok_inj in H. subst s'. unfold stored, pending, value. cbn [db batch inflight].
  rewrite get_update, (where_plain n p P C), weqb_refl_. unfold created in K. split; [destruct (get (db s) n); [reflexivity|contradiction K; reflexivity]|]. split; [reflexivity|].
  intros m N. rewrite get_update, (where_plain n p P C). destruct (weqb m n) eqn:E; [apply weqb_iff in E; contradiction|]. destruct (get (db s) m); reflexivity.
Qed.
Print Assumptions C54_max.
Definition r0 : rstate := RState [] [] [].
Definition show (r : res rstate) (n : list Z) : option (Z * Z) := match r with Ok s => Some (stored s n, pending s n) | _ => None end.
(** Defect: what a failed update had taken is lost. *)
Theorem C54_failed_update_refuted : show (rrun r0 [RCreate (lit "a") 0 true; RIncr (lit "a"); RTake 0; RWrite 0 0 false; RTake 0; RWrite 0 0 true]) (lit "a") = Some (0, 0).
Proof. vm_compute. reflexivity. Qed.
Print Assumptions C54_failed_update_refuted.
(** Defect: increments committed before the counter is created are lost. *)
Theorem C54_created_late_refuted : show (rrun r0 [RIncr (lit "a"); RTake 0; RWrite 0 0 true; RCreate (lit "a") 0 true; RTake 0; RWrite 0 0 true]) (lit "a") = Some (0, 0).
Proof. vm_compute. reflexivity. Qed.
Print Assumptions C54_created_late_refuted.
(** Defect: clearing spares pending increments, they turn up afterwards. *)
Theorem C54_clear_pending_refuted : show (rrun r0 [RCreate (lit "a") 0 true; RIncr (lit "a"); RClear (lit "a") 0 true; RTake 0; RWrite 0 0 true]) (lit "a") = Some (1, 0).
Proof. vm_compute. reflexivity. Qed.
Print Assumptions C54_clear_pending_refuted.
(** Defect: incrementing a counter called NAME increments all counters. *)
Theorem C54_column_refuted : show (rrun r0 [RCreate (lit "a") 0 true; RCreate (lit "name") 0 true; RIncr (lit "name"); RTake 0; RWrite 0 0 true]) (lit "a") = Some (1, 0).
Proof. vm_compute. reflexivity. Qed.
Print Assumptions C54_column_refuted.
Example C54_ex :
  show (rrun r0 [RCreate (lit "a") 0 true; RCreate (lit "b") 0 true; RIncr (lit "a"); RIncr (lit "b"); RTake 1; RIncr (lit "a"); RWrite 1 0 true; RTake 2; RWrite 2 0 true; RIncr (lit "a"); RWrite 1 0 true]) (lit "a") = Some (2, 1) /\
  show (commit (RState [(lit "a", 3); (lit "b", 0)] [(lit "a", 4); (lit "b", 1)] []) 0 1700000000) (lit "a") = Some (7, 0).
Proof. split; vm_compute; reflexivity. Qed.

(** ** C55 *)
Lemma dec_length fuel : forall n k, 0 <= n < 10 ^ Z.of_nat fuel -> (0 < k)%nat -> (length (dec_digits fuel n) <= k)%nat <-> n < 10 ^ Z.of_nat k \/ (fuel <= k)%nat.
Proof.
  induction fuel as [|fuel IH]; intros n k R K; cbn [dec_digits].
  - cbn [length]. split; [intros _; right; lia|lia].
  - rewrite app_length. cbn [length]. destruct (n <? 10) eqn:E.
    + cbn [length]. split; [intros _|lia]. left. assert (10 ^ 1 <= 10 ^ Z.of_nat k) by (apply Z.pow_le_mono_r; lia). lia.
    + rewrite Nat2Z.inj_succ, Z.pow_succ_r in R by lia. destruct k as [|k]; [lia|]. rewrite Nat2Z.inj_succ, Z.pow_succ_r by lia. destruct k as [|k].
      * change (10 ^ Z.of_nat 0) with 1. assert (1 <= length (dec_digits fuel (n / 10)))%nat.
        { destruct fuel; [change (10 ^ Z.of_nat 0) with 1 in R; lia|]. cbn [dec_digits]. rewrite app_length. cbn [length]. lia. }
        split; [lia|]. intros [H1|H1]; [lia|]. destruct fuel; [change (10 ^ Z.of_nat 0) with 1 in R; lia|lia].
      * specialize (IH (n / 10) (S k) ltac:(lia) ltac:(lia)). lia.
Qed.
(** The buffer of an indexed name is large enough exactly for indices of up to eight digits. *)
Theorem C55_buffer base i : 0 <= i < 2 ^ 32 -> index_name base i = Ok (base ++ 46 :: sprintf_ld i) /\ i < 10 ^ 8 \/ index_name base i = UB /\ 10 ^ 8 <= i.
Proof.
  intros R. unfold index_name, index_text. rewrite app_length. cbn [length]. pose proof (dec_length 20 i 8 ltac:(change (10 ^ Z.of_nat 20) with 100000000000000000000; lia) ltac:(lia)) as L. change (10 ^ Z.of_nat 8) with (10 ^ 8) in L.
  unfold sprintf_ld. replace (i <? 0) with false by lia. destruct (Nat.leb _ _) eqn:E.
  - apply Nat.leb_le in E. left. split; [reflexivity|lia].
  - apply Nat.leb_gt in E. right. split; [reflexivity|lia].
Qed.
Print Assumptions C55_buffer.
(** Different bases or indices give different names. *)
Lemma dec_no_dot n : 0 <= n < 2 ^ 32 -> ~ In 46 (sprintf_ld n).
Proof.
  intros R. unfold sprintf_ld. replace (n <? 0) with false by lia. destruct (dec_digits_spec 20 n ltac:(change (10 ^ Z.of_nat 20) with 100000000000000000000; lia) ltac:(lia)) as (d & ds & D & _ & _).
  intros K. revert K. generalize dependent (dec_digits 20 n). generalize (d :: ds). intros l s D K. induction D as [|x c l s [_ C] D IH]; [destruct K|]. destruct K as [->|K]; [unfold char_of_digit in C; lia|exact (IH K)].
Qed.
Theorem C55_injective a b i j : 0 <= i < 2 ^ 32 -> 0 <= j < 2 ^ 32 -> index_text a i = index_text b j -> a = b /\ i = j.
Proof.
  intros I J H. unfold index_text in H. apply (f_equal (@rev Z)) in H. rewrite !rev_app_distr in H. cbn [rev] in H. rewrite <- !app_assoc in H. cbn [app] in H.
  assert (U : forall x y u v : list Z, ~ In 46 x -> ~ In 46 y -> x ++ 46 :: u = y ++ 46 :: v -> x = y /\ u = v).
  { induction x as [|c x IH]; intros [|d y] u v X Y E; cbn [app] in E.
    - injection E as E. split; [reflexivity|exact E].
    - injection E as <- _. contradiction Y. left. reflexivity.
    - injection E as -> _. contradiction X. left. reflexivity.
    - injection E as -> E. destruct (IH y u v ltac:(intros K; apply X; right; exact K) ltac:(intros K; apply Y; right; exact K) E) as [-> ->]. split; reflexivity. }
  apply U in H; [|rewrite <- in_rev; apply dec_no_dot; assumption|rewrite <- in_rev; apply dec_no_dot; assumption]. destruct H as [H1 H2].
  apply (f_equal (@rev Z)) in H1, H2. rewrite !rev_involutive in H1, H2. split; [exact H2|].
  rewrite <- (number_sprintf i), <- (number_sprintf j) by lia. rewrite H1. reflexivity.
Qed.
Print Assumptions C55_injective.
(** A range is created completely and in order, one counter per index. *)
Theorem C55_range base lo hi : 0 <= lo -> hi < 10 ^ 8 ->
  exists fuel, create_range fuel base lo hi (fun _ => true) = Ok (map (fun k => base ++ 46 :: sprintf_ld (lo + Z.of_nat k)) (seq 0 (Z.to_nat (hi - lo + 1))), true).
Proof.
  intros L H. exists (S (Z.to_nat (hi - lo + 1))). remember (Z.to_nat (hi - lo + 1)) as n eqn:N. revert lo L N. induction n as [|n IH]; intros lo L N.
  - cbn [create_range]. replace (lo <=? hi) with false by lia. reflexivity.
  - change (create_range (S (S n)) base lo hi (fun _ => true)) with (if lo <=? hi then do name <- index_name base lo; if true then do (l, r) <- create_range (S n) base (u32 (lo + 1)) hi (fun _ => true); Ok (name :: l, r) else Ok ([name], false) else Ok ([], true)).
    replace (lo <=? hi) with true by lia. destruct (C55_buffer base lo ltac:(lia)) as [[E _]|[_ E]]; [|lia]. rewrite E. cbn [bind]. assert (u32 (lo + 1) = lo + 1) as -> by (unfold u32; lia).
    rewrite (IH (lo + 1)) by lia. cbn [bind seq map]. rewrite <- seq_shift, map_map. replace (lo + Z.of_nat 0) with lo by lia. do 3 f_equal. apply map_ext. intros k. do 3 f_equal. lia.
Qed.
Print Assumptions C55_range.
(** If the database refuses one, the range ends there and the caller is told. *)
Theorem C55_range_fails base lo hi n ok : 0 <= lo -> hi < 10 ^ 8 -> 0 <= n -> lo + n <= hi ->
  (forall k, 0 <= k < n -> ok (base ++ 46 :: sprintf_ld (lo + k)) = true) -> ok (base ++ 46 :: sprintf_ld (lo + n)) = false ->
  exists fuel, create_range fuel base lo hi ok = Ok (map (fun k => base ++ 46 :: sprintf_ld (lo + Z.of_nat k)) (seq 0 (S (Z.to_nat n))), false).
Proof.
  intros L H N0 LN A B. exists (S (Z.to_nat n)). remember (Z.to_nat n) as c eqn:C. revert lo n L N0 LN A B C. induction c as [|c IH]; intros lo n L N0 LN A B C.
  - assert (n = 0) by lia. subst n. rewrite Z.add_0_r in B. cbn [create_range]. replace (lo <=? hi) with true by lia. destruct (C55_buffer base lo ltac:(lia)) as [[E _]|[_ E]]; [|lia]. rewrite E. cbn [bind]. rewrite B. cbn [seq map]. rewrite Z.add_0_r. reflexivity.
  - change (create_range (S (S c)) base lo hi ok) with (if lo <=? hi then do name <- index_name base lo; if ok name then do (l, r) <- create_range (S c) base (u32 (lo + 1)) hi ok; Ok (name :: l, r) else Ok ([name], false) else Ok ([], true)).
    replace (lo <=? hi) with true by lia. destruct (C55_buffer base lo ltac:(lia)) as [[E _]|[_ E]]; [|lia]. rewrite E. cbn [bind]. assert (u32 (lo + 1) = lo + 1) as -> by (unfold u32; lia).
    pose proof (A 0 ltac:(lia)) as A0. rewrite Z.add_0_r in A0. rewrite A0. rewrite (IH (lo + 1) (n - 1)); [|lia|lia|lia| | |lia].
    + cbn [bind]. change (seq 0 (S (S c))) with (0%nat :: seq 1 (S c)). cbn [map]. rewrite <- seq_shift, map_map. replace (lo + Z.of_nat 0) with lo by lia. do 3 f_equal. apply map_ext. intros k. do 3 f_equal. lia.
    + intros k Hk. specialize (A (k + 1) ltac:(lia)). replace (lo + 1 + k) with (lo + (k + 1)) by lia. exact A.
    + replace (lo + 1 + (n - 1)) with (lo + n) by lia. exact B.
Qed.
Print Assumptions C55_range_fails.
(** Defect: a range up to the largest index never ends well; even with large buffers the
    index would wrap before it exceeds the limit. *)
Theorem C55_whole_range_refuted fuel base i r : 0 <= i < 2 ^ 32 -> create_range fuel base i (2 ^ 32 - 1) (fun _ => true) <> Ok r.
Proof.
  revert i r. induction fuel as [|fuel IH]; intros i r R H; [discriminate|]. cbn [create_range] in H. replace (i <=? 2 ^ 32 - 1) with true in H by lia.
  apply bind_ok in H. destruct H as (name & _ & H). apply bind_ok in H. destruct H as ([l b] & H & _). apply (IH (u32 (i + 1)) (l, b)); [unfold u32; lia|exact H].
Qed.
Print Assumptions C55_whole_range_refuted.
(** The command buffers are large enough exactly for these lengths of names. *)
Theorem C55_command_limits name v now :
  (cmd200 (create_text name now) = Ok tt <-> (length name + length (sprintf_ld now) <= 136)%nat) /\
  (cmd200 (max_text name v now) = Ok tt <-> (length name + length (sprintf_ld v) + length (sprintf_ld now) <= 134)%nat) /\
  (cmd200 (clear_text name now) = Ok tt <-> (length name + length (sprintf_ld now) <= 129)%nat) /\
  (cmd200 (commit_text name v now) = Ok tt <-> (length name + length (sprintf_ld v) + length (sprintf_ld now) <= 139)%nat).
Proof.
  assert (G : forall t k, (length t = k)%nat -> (cmd200 t = Ok tt <-> (k < 200)%nat)) by (intros t k <-; unfold cmd200; destruct (Nat.ltb_spec (length t) 200); split; intros; try lia; try reflexivity; discriminate).
  unfold create_text, max_text, clear_text, commit_text. repeat split; (rewrite G; [|rewrite ?app_length; cbn [length]; reflexivity]); vm_compute (length (lit _)); lia.
Qed.
Print Assumptions C55_command_limits.
(** Beyond them the texts are written behind the buffer. *)
Theorem C55_command_overflow name v now :
  ((136 < length name + length (sprintf_ld now))%nat -> cmd200 (create_text name now) = UB) /\
  ((134 < length name + length (sprintf_ld v) + length (sprintf_ld now))%nat -> cmd200 (max_text name v now) = UB) /\
  ((129 < length name + length (sprintf_ld now))%nat -> cmd200 (clear_text name now) = UB) /\
  ((139 < length name + length (sprintf_ld v) + length (sprintf_ld now))%nat -> cmd200 (commit_text name v now) = UB).
Proof.
  destruct (C55_command_limits name v now) as (A & B & C & D).
  assert (G : forall t, cmd200 t <> Ok tt -> cmd200 t = UB) by (intros t; unfold cmd200; destruct (Nat.ltb _ _); intros H; [contradiction H; reflexivity|reflexivity]).
  repeat split; intros L; apply G; intros E; [apply A in E|apply B in E|apply C in E|apply D in E]; lia.
Qed.
Print Assumptions C55_command_overflow.
Example C55_ex : index_name (lit "GSM.X") 99999999 = Ok (lit "GSM.X.99999999") /\ index_name (lit "GSM.X") 100000000 = UB /\
  create_range 5 (lit "c") 8 10 (fun _ => true) = Ok ([lit "c.8"; lit "c.9"; lit "c.10"], true).
Proof. repeat split; vm_compute; reflexivity. Qed.
