(** Proofs for NetModel.v. *)
From Verif Require Import Base BaseFacts UtilsModel ConfigModel SocketModel NetModel NetSpec.
Local Open Scope Z_scope.

Lemma run_snoc H l o : forall n, run H n (l ++ [o]) = do (xs, m) <- run H n l; do (x, m) <- step H m o; Ok (xs ++ [(o, x)], m).
Proof.
  induction l as [|a l IH]; intros n; cbn [app run bind]; [destruct (step H n o) as [[x m]| | |]; reflexivity|].
  destruct (step H n a) as [[x m]| | |]; cbn [bind]; try reflexivity. rewrite IH. destruct (run H m l) as [[xs k]| | |]; cbn [bind]; try reflexivity. destruct (step H k o) as [[y k']| | |]; reflexivity.
Qed.
Lemma arrivals_snoc H i tr x : forall o, arrivals H i o (tr ++ [x]) = arrivals H i o tr ++ arrival1 H i (fold_left bound1 tr o) x.
Proof. induction tr as [|y tr IH]; intros o; cbn [app arrivals fold_left]; [rewrite app_nil_r; reflexivity|]. rewrite IH, app_assoc. reflexivity. Qed.
Lemma got_snoc i tr x : got i (tr ++ [x]) = got i tr ++ got1 i x.
Proof. unfold got. rewrite flat_map_app. cbn [flat_map]. rewrite app_nil_r. reflexivity. Qed.
Lemma bound_snoc tr x : bound (tr ++ [x]) = bound1 (bound tr) x.
Proof. unfold bound. rewrite fold_left_app. reflexivity. Qed.
Lemma mode_snoc i tr x : mode i (tr ++ [x]) = mode1 i (mode i tr) x.
Proof. unfold mode. rewrite fold_left_app. reflexivity. Qed.
Lemma dest_snoc H i tr x : dest_of H i (tr ++ [x]) = dest1 H i (dest_of H i tr) x.
Proof. unfold dest_of. rewrite fold_left_app. reflexivity. Qed.

(** *** Lists of sockets *)
Definition ports (l : list (nat * endpoint)) : list (nat * Z) := map (fun x => (fst x, lport (snd x))) l.
Lemma get_put l i x j : get (put l i x) j = if (i =? j)%nat then match get l i with Some _ => Some x | None => None end else get l j.
Proof.
  induction l as [|[k e] l IH]; cbn [put get]; [destruct (i =? j)%nat; reflexivity|]. destruct (Nat.eqb_spec k i) as [->|N].
  - cbn [get]. destruct (i =? j)%nat; reflexivity.
  - cbn [get]. rewrite IH. destruct (Nat.eqb_spec k j) as [->|M]; [|reflexivity]. destruct (Nat.eqb_spec i j); [congruence|reflexivity].
Qed.
Lemma ports_put l i x e : get l i = Some e -> lport x = lport e -> ports (put l i x) = ports l.
Proof.
  intros G P. induction l as [|[k y] l IH]; [discriminate|]. cbn [put get] in *. destruct (k =? i)%nat.
  - injection G as ->. cbn [ports map fst snd]. rewrite P. reflexivity.
  - cbn [ports map]. f_equal. exact (IH G).
Qed.
Lemma ports_deliver l p x : ports (deliver l p x) = ports l.
Proof. induction l as [|[k y] l IH]; [reflexivity|]. cbn [deliver]. destruct (lport y =? p); [reflexivity|]. cbn [ports map]. f_equal. exact IH. Qed.
Lemma get_deliver l p x j : NoDup (map fst l) -> get (deliver l p x) j =
  match get l j with
  | Some e => Some (if match holder (ports l) p with Some k => (k =? j)%nat | None => false end then End (so e) (lport e) (nonblock e) (queue e ++ [x]) else e)
  | None => None
  end.
Proof.
  induction l as [|[k y] l IH]; intros N; [reflexivity|]. inversion N as [|a b N1 N2]. subst. cbn [deliver ports map fst snd holder get]. destruct (lport y =? p) eqn:P.
  - cbn [get]. destruct (Nat.eqb_spec k j) as [->|D]; [reflexivity|]. destruct (get l j); reflexivity.
  - cbn [get]. destruct (Nat.eqb_spec k j) as [->|D]; [|exact (IH N2)].
    destruct (holder (map (fun x0 => (fst x0, lport (snd x0))) l) p) as [k|] eqn:Hk; [|reflexivity]. destruct (Nat.eqb_spec k j) as [->|]; [|reflexivity]. exfalso. apply N1.
    clear - Hk. induction l as [|[k y] l IH]; [discriminate|]. cbn [map fst snd holder] in *. destruct (lport y =? p); [injection Hk as ->; left; reflexivity|right; exact (IH Hk)].
Qed.
Lemma get_filter l i j : get (filter (fun x => negb (fst x =? i)%nat) l) j = if (i =? j)%nat then None else get l j.
Proof.
  induction l as [|[k y] l IH]; cbn [filter get fst]; [destruct (i =? j)%nat; reflexivity|]. destruct (Nat.eqb_spec k i) as [->|N]; cbn [negb].
  - rewrite IH. destruct (i =? j)%nat; reflexivity.
  - cbn [get]. rewrite IH. destruct (Nat.eqb_spec k j) as [->|]; [|reflexivity]. destruct (Nat.eqb_spec i j); [congruence|reflexivity].
Qed.
Lemma port_of_ports l i : port_of (ports l) i = option_map lport (get l i).
Proof. induction l as [|[k y] l IH]; [reflexivity|]. cbn [ports map fst snd port_of get]. destruct (k =? i)%nat; [reflexivity|exact IH]. Qed.
Lemma keys_ports l : map fst (ports l) = map fst l.
Proof. unfold ports. rewrite map_map. reflexivity. Qed.
Lemma get_keys l i : get l i <> None <-> In i (map fst l).
Proof.
  induction l as [|[k y] l IH]; cbn [get map fst In]; [split; [congruence|intros []]|]. destruct (Nat.eqb_spec k i) as [->|N]; [split; [left; reflexivity|discriminate]|]. rewrite IH. split; [right; assumption|intros [?|?]; [congruence|assumption]].
Qed.

(** *** Addresses *)
Definition zeros : cells := repeat (Some 0) 256.
Definition blank : cells := repeat None 256.
Definition dest_cells (d : option (list Z * Z)) : cells :=
  match d with None => zeros | Some (a, p) => map Some ([2; 0] ++ net_short p ++ a) ++ repeat (Some 0) 248 end.
Lemma four (a : list Z) : length a = 4%nat -> exists x y z w, a = [x; y; z; w].
Proof. destruct a as [|x [|y [|z [|w [|]]]]]; try discriminate. intros _. exists x, y, z, w. reflexivity. Qed.
Lemma byte_some l m i : (i < length l)%nat -> byte (map Some l ++ m) i = Ok (nth i l 0).
Proof. intros L. unfold byte. rewrite nth_error_app1 by (rewrite map_length; exact L). rewrite (map_nth_error Some i l (d := nth i l 0)); [reflexivity|]. apply nth_error_nth'. exact L. Qed.
Lemma target_bytes a p m : ip a -> 0 <= p < 65536 -> inet_target (map Some ([2; 0] ++ net_short p ++ a) ++ m) = Ok (if p =? 0 then None else Some (a, p)).
Proof.
  intros [L _] P. destruct (four a L) as (x & y & z & w & ->). unfold inet_target. rewrite !byte_some by (cbn; lia). cbn [net_short app nth bind]. change (2 + 256 * 0 =? AF_INET) with true. cbn [orb].
  replace (256 * (p / 256) + p mod 256) with p by (rewrite <- Z.div_mod by lia; reflexivity). reflexivity.
Qed.
Lemma target_zeros : inet_target zeros = Ok None.
Proof. vm_compute. reflexivity. Qed.
Lemma target_blank : inet_target blank = UB.
Proof. vm_compute. reflexivity. Qed.
Lemma target_dest d : match d with Some (a, p) => ip a /\ 0 <= p < 65536 | None => True end -> inet_target (dest_cells d) = Ok (match d with Some (a, p) => if p =? 0 then None else Some (a, p) | None => None end).
Proof. destruct d as [[a p]|]; [intros [A P]; apply target_bytes; assumption|intros _; exact target_zeros]. Qed.
Lemma resolve_dest rv_ d name p a : rv_ name = Some (2, a) -> ip a -> match d with Some (b, q) => ip b | None => True end ->
  resolveAddress rv_ (dest_cells d) name p = Ok (true, dest_cells (Some (a, p))).
Proof.
  intros R [L _] D. destruct (four a L) as (x & y & z & w & ->). unfold resolveAddress. rewrite R. change (negb (2 =? AF_INET)) with false. cbv iota. unfold net_short.
  destruct d as [[b q]|].
  - destruct D as [Lb _]. destruct (four b Lb) as (x' & y' & z' & w' & ->). reflexivity.
  - reflexivity.
Qed.
(** The kernel fills in 16 bytes of mSource. *)
Definition src_cells (f : option cells) : cells := match f with None => blank | Some f => f ++ repeat None 240 end.
Lemma store_src f s : length f = 16%nat -> match s with Some c => length c = 16%nat | None => True end -> store (src_cells s) 0 f = Ok (src_cells (Some (map Some f))).
Proof.
  intros L S. unfold store. assert (LS : length (src_cells s) = 256%nat) by (destruct s as [c|]; cbn [src_cells]; [rewrite app_length, S, repeat_length; reflexivity|apply repeat_length]).
  rewrite LS, L. cbn [Nat.leb Nat.add firstn app]. f_equal. cbn [src_cells]. f_equal. destruct s as [c|]; cbn [src_cells]; [|reflexivity].
  rewrite skipn_app, S, skipn_all2 by lia. reflexivity.
Qed.
Lemma sockaddr_length a p : ip a -> length (sockaddr a p) = 16%nat.
Proof. intros [L _]. unfold sockaddr. rewrite !app_length, repeat_length, L. reflexivity. Qed.
Lemma target_sockaddr a p m : ip a -> 0 < p < 65536 -> inet_target (map Some (sockaddr a p) ++ m) = Ok (Some (a, p)).
Proof.
  intros A P. unfold sockaddr. rewrite !app_assoc, map_app, <- app_assoc. rewrite <- (app_assoc [2; 0]). rewrite target_bytes by (try assumption; lia). replace (p =? 0) with false by lia. reflexivity.
Qed.

(** *** The invariant *)
Lemma last_src_snoc i tr x : last_src i (tr ++ [x]) = match rev (got1 i x) with [] => last_src i tr | (_, _, f) :: _ => Some f end.
Proof. unfold last_src. rewrite got_snoc, rev_app_distr. destruct (rev (got1 i x)) as [|[[r d] f] t]; reflexivity. Qed.
Definition from_ok (f : list Z) : Prop := exists a p, ip a /\ 0 < p < 65536 /\ f = sockaddr a p.
Record good (H : host) (tr : trace) (i : nat) (e : endpoint) : Prop := Good {
  g_mode : nonblock e = mode i tr;
  g_queue : map seen (arrivals H i [] tr) = got i tr ++ map seen (queue e);
  g_dest : mDestination (so e) = dest_cells (dest_of H i tr);
  g_dok : match dest_of H i tr with Some (a, p) => ip a /\ 0 <= p < 65536 | None => True end;
  g_src : mSource (so e) = src_cells (last_src i tr);
  g_sok : match last_src i tr with Some c => exists f, from_ok f /\ c = map Some f | None => True end;
  g_buf : length (userbuf (so e)) = 1500%nat;
  g_port : 0 < lport e < 65536;
  g_from : Forall (fun x => from_ok (snd x)) (queue e) }.
Record Inv (H : host) (tr : trace) (n : net) : Prop := MkInv {
  v_nodup : NoDup (map fst (ends n));
  v_made : forall i, In i (map fst (ends n)) -> (i < made n)%nat;
  v_bound : bound tr = ports (ends n);
  v_good : forall i e, get (ends n) i = Some e -> good H tr i e;
  v_new : forall i, (made n <= i)%nat -> mode i tr = false /\ arrivals H i [] tr = [] /\ got i tr = [] /\ dest_of H i tr = None }.
(** A call that concerns nobody but perhaps its caller leaves the others good. *)
Definition quiet (H : host) (tr : trace) (x : op * obs) (i : nat) : Prop :=
  mode1 i (mode i tr) x = mode i tr /\ arrival1 H i (bound tr) x = [] /\ got1 i x = [] /\ dest1 H i (dest_of H i tr) x = dest_of H i tr.
Lemma quiet_good H tr x i e : quiet H tr x i -> good H tr i e -> good H (tr ++ [x]) i e.
Proof.
  intros (Q1 & Q2 & Q3 & Q4) [A B C D F G I J K]. split; try assumption.
  - rewrite mode_snoc, Q1. exact A.
  - rewrite arrivals_snoc, got_snoc, Q3, app_nil_r. fold (bound tr). rewrite Q2, app_nil_r. exact B.
  - rewrite dest_snoc, Q4. exact C.
  - rewrite dest_snoc, Q4. exact D.
  - rewrite last_src_snoc, Q3. exact F.
  - rewrite last_src_snoc, Q3. exact G.
Qed.
Lemma quiet_new H tr x i : quiet H tr x i -> mode i tr = false /\ arrivals H i [] tr = [] /\ got i tr = [] /\ dest_of H i tr = None ->
  mode i (tr ++ [x]) = false /\ arrivals H i [] (tr ++ [x]) = [] /\ got i (tr ++ [x]) = [] /\ dest_of H i (tr ++ [x]) = None.
Proof. intros (Q1 & Q2 & Q3 & Q4) (A & B & C & D). rewrite mode_snoc, arrivals_snoc, got_snoc, dest_snoc. fold (bound tr). rewrite Q1, Q2, Q3, Q4, A, B, C, D. repeat split. Qed.
Lemma holder_in o p i : holder o p = Some i -> In i (map fst o).
Proof. induction o as [|[j q] o IH]; [discriminate|]. cbn [holder map fst In]. destruct (q =? p); [intros E; injection E as ->; left; reflexivity|right; exact (IH H)]. Qed.
(** A packet delivered. *)
Lemma deliver_inv H tr n x p pk : Inv H tr n -> bound1 (bound tr) x = bound tr -> from_ok (snd pk) ->
  (forall i, mode1 i (mode i tr) x = mode i tr /\ got1 i x = [] /\ dest1 H i (dest_of H i tr) x = dest_of H i tr) ->
  (forall i, arrival1 H i (bound tr) x = if match holder (bound tr) p with Some k => (k =? i)%nat | None => false end then [pk] else []) ->
  Inv H (tr ++ [x]) (Net (deliver (ends n) p pk) (made n)).
Proof.
  intros [N M B G W] BX FO Q A. split; cbn [ends made].
  - rewrite <- keys_ports, ports_deliver, keys_ports. exact N.
  - intros i. rewrite <- keys_ports, ports_deliver, keys_ports. apply M.
  - rewrite bound_snoc, BX, ports_deliver. exact B.
  - intros i e. rewrite get_deliver by exact N. destruct (get (ends n) i) as [e0|] eqn:E; [|discriminate]. intros Y. injection Y as <-. specialize (G i e0 E). specialize (A i). destruct (Q i) as (Q1 & Q2 & Q3).
    rewrite <- B. destruct (match holder (bound tr) p with Some k => (k =? i)%nat | None => false end); [|apply quiet_good; [repeat split; assumption|exact G]].
    destruct G as [G1 G2 G3 G4 G5 G6 G7 G8 G9]. split; cbn [so lport nonblock queue].
    + rewrite mode_snoc, Q1. exact G1.
    + rewrite arrivals_snoc, got_snoc, Q2, app_nil_r. fold (bound tr). rewrite A, !map_app, G2, app_assoc. reflexivity.
    + rewrite dest_snoc, Q3. exact G3.
    + rewrite dest_snoc, Q3. exact G4.
    + rewrite last_src_snoc, Q2. exact G5.
    + rewrite last_src_snoc, Q2. exact G6.
    + exact G7.
    + exact G8.
    + apply Forall_app. split; [exact G9|]. constructor; [exact FO|constructor].
  - intros i Hi. apply quiet_new; [|exact (W i Hi)]. destruct (Q i) as (Q1 & Q2 & Q3). repeat split; try assumption. rewrite A. destruct (holder (bound tr) p) as [k|] eqn:K; [|reflexivity]. destruct (Nat.eqb_spec k i) as [->|]; [|reflexivity].
    exfalso. apply holder_in in K. rewrite B, keys_ports in K. specialize (M i K). lia.
Qed.
(** One socket changed by its own call. *)
Lemma change_inv H tr n x i e e' : Inv H tr n -> get (ends n) i = Some e -> lport e' = lport e -> bound1 (bound tr) x = bound tr ->
  (forall j, j <> i -> quiet H tr x j) -> good H (tr ++ [x]) i e' -> Inv H (tr ++ [x]) (change n i e').
Proof.
  intros [N M B G W] E P BX Q Y. unfold change. split; cbn [ends made].
  - rewrite <- keys_ports, (ports_put _ _ _ _ E P), keys_ports. exact N.
  - intros j. rewrite <- keys_ports, (ports_put _ _ _ _ E P), keys_ports. apply M.
  - rewrite bound_snoc, BX, (ports_put _ _ _ _ E P). exact B.
  - intros j f. rewrite get_put, E. destruct (Nat.eqb_spec i j) as [<-|D]; [intros X; injection X as <-; exact Y|]. intros X. apply quiet_good; [apply Q; congruence|exact (G j f X)].
  - intros j Hj. apply quiet_new; [|exact (W j Hj)]. apply Q. intros ->. assert (I : In i (map fst (ends n))) by (apply get_keys; congruence). specialize (M i I). lia.
Qed.
Lemma same_inv H tr n x : Inv H tr n -> bound1 (bound tr) x = bound tr -> (forall j, quiet H tr x j) -> Inv H (tr ++ [x]) n.
Proof.
  intros [N M B G W] BX Q. split.
  - exact N.
  - exact M.
  - rewrite bound_snoc, BX. exact B.
  - intros i e E. apply quiet_good; [apply Q|exact (G i e E)].
  - intros i Hi. apply quiet_new; [apply Q|exact (W i Hi)].
Qed.
(** What sending does. *)
Lemma send_eq H n i e dest m f d : inet_target dest = Ok (match d with Some (a, p) => if p =? 0 then None else Some (a, p) | None => None end) ->
  send_ H n i e dest m f = Ok (sends d m f, match d, f with
    | Some (a, p), Arrives => if (Z.of_nat (length m) <=? 65507) && negb (p =? 0) && own H a then Net (deliver (ends n) p (m, sockaddr (srcof H a) (lport e))) (made n) else n
    | _, _ => n end).
Proof.
  intros T. unfold send_. rewrite T. cbn [bind]. unfold sends, sendto. change udp_limit with 65507. destruct d as [[a p]|]; [|destruct f; reflexivity]. destruct (p =? 0); destruct f; cbn [andb negb]; destruct (Z.of_nat (length m) <=? 65507); cbn [andb]; reflexivity.
Qed.
Lemma send_inv H tr n c i e dest m f d : proper H -> Inv H tr n -> get (ends n) i = Some e -> sending c -> caller c = Some i ->
  inet_target dest = Ok (match d with Some (a, p) => if p =? 0 then None else Some (a, p) | None => None end) -> (match d with Some (a, p) => ip a | None => True end) ->
  forall n', send_ H n i e dest m f = Ok (sends d m f, n') -> Inv H (tr ++ [(c, sends d m f)]) n'.
Proof.
  intros PH V E SC CC T D n' R. rewrite (send_eq H n i e dest m f d T) in R. injection R as R.
  assert (Q0 : forall x j, mode1 j (mode j tr) (c, x) = mode j tr /\ got1 j (c, x) = [] /\ dest1 H j (dest_of H j tr) (c, x) = dest_of H j tr) by (intros x j; destruct c; try destruct SC; repeat split).
  assert (BX : forall x, bound1 (bound tr) (c, x) = bound tr) by (intros x; destruct c; try destruct SC; reflexivity).
  assert (A0 : forall x j, arrival1 H j (bound tr) (c, x) = match x with Sent _ (Some ((a, p), m)) Arrives => if own H a && match holder (bound tr) p with Some k => (k =? j)%nat | None => false end then [(m, sockaddr (srcof H a) (lport e))] else [] | _ => [] end).
  { intros x j. assert (PO : port_of (bound tr) i = Some (lport e)) by (rewrite (v_bound _ _ _ V), port_of_ports, E; reflexivity).
    destruct c; try destruct SC; cbn [caller] in CC; injection CC as ->; cbn [arrival1 caller]; rewrite PO; destruct x as [| | | |r [[[a p] m0]|] g| |]; try destruct g; reflexivity. }
  assert (NO : (forall j, arrival1 H j (bound tr) (c, sends d m f) = []) -> n' = n -> Inv H (tr ++ [(c, sends d m f)]) n').
  { intros A ->. apply same_inv; [exact V|apply BX|]. intros j. destruct (Q0 (sends d m f) j) as (Q1 & Q2 & Q3). repeat split; try assumption. apply A. }
  destruct d as [[a p]|]; [|apply NO; [intros j; rewrite A0; destruct f; reflexivity|destruct f; symmetry; exact R]].
  destruct f; [|apply NO; [intros j; rewrite A0; unfold sends; destruct (_ && _); reflexivity|symmetry; exact R]|apply NO; [intros j; rewrite A0; reflexivity|symmetry; exact R]].
  unfold sends in *. destruct ((Z.of_nat (length m) <=? 65507) && negb (p =? 0)); cbn [andb] in R; [|apply NO; [intros j; rewrite A0; reflexivity|symmetry; exact R]].
  destruct (own H a) eqn:O; [|apply NO; [intros j; rewrite A0, O; reflexivity|symmetry; exact R]].
  subst n'. apply deliver_inv; [exact V|apply BX| |intros j; apply Q0|].
  - exists (srcof H a), (lport e). split; [exact (proj1 (proj2 PH a D O))|]. split; [exact (g_port _ _ _ _ (v_good _ _ _ V i e E))|reflexivity].
  - intros j. rewrite A0, O. reflexivity.
Qed.
(** Reading what waits. *)
Lemma take_eq H tr n i e p rest : Inv H tr n -> get (ends n) i = Some e -> queue e = p :: rest ->
  exists s, take n i e p rest = Ok (let '(r, d, f) := seen p in Got r d f, change n i (End s (lport e) (nonblock e) rest)) /\ mDestination s = mDestination (so e) /\ mSource s = src_cells (Some (map Some (snd p))) /\ length (userbuf s) = 1500%nat.
Proof.
  intros V E Q. destruct (v_good _ _ _ V i e E) as [G1 G2 G3 G4 G5 G6 G7 G8 G9]. rewrite Q in G9. inversion G9 as [|x y (a & q & A & P & F) G10]. subst x y.
  assert (LF : length (snd p) = 16%nat) by (rewrite F; apply sockaddr_length, A).
  assert (SL : match last_src i tr with Some c => length c = 16%nat | None => True end).
  { destruct (last_src i tr) as [c|]; [|exact Logic.I]. destruct G6 as (f & (a' & q' & A' & _ & ->) & ->). rewrite map_length. apply sockaddr_length, A'. }
  unfold take, read_. change (Z.to_nat MAX_UDP_LENGTH) with 1500%nat. set (d := firstn 1500 (fst p)). assert (LD : (length d <= 1500)%nat) by (unfold d; rewrite firstn_length; lia).
  assert (SB : store (userbuf (so e)) 0 d = Ok (map Some d ++ skipn (length d) (userbuf (so e)))).
  { unfold store. cbn [Nat.add firstn app]. rewrite G7. replace (Nat.leb (length d) 1500) with true by (symmetry; apply Nat.leb_le; exact LD). reflexivity. }
  rewrite SB, G5. cbn [bind]. rewrite store_src by assumption. cbn [bind].
  exists (Sock (mDestination (so e)) (src_cells (Some (map Some (snd p)))) (map Some d ++ skipn (length d) (userbuf (so e)))). split; [|split; [reflexivity|split; [reflexivity|]]].
  - unfold seen. fold d. cbn [userbuf mSource]. rewrite Nat2Z.id. f_equal. apply (f_equal2 pair); [|reflexivity]. f_equal.
    + rewrite firstn_app, map_length, Nat.sub_diag, firstn_O, app_nil_r. rewrite firstn_all2; [reflexivity|rewrite map_length; apply Nat.le_refl].
    + cbn [src_cells]. rewrite firstn_app, map_length, LF, Nat.sub_diag, firstn_O, app_nil_r. rewrite firstn_all2; [reflexivity|rewrite map_length, LF; apply Nat.le_refl].
  - cbn [userbuf]. rewrite app_length, map_length, skipn_length, G7. lia.
Qed.
Lemma take_inv H tr n i e p rest c x n' : Inv H tr n -> get (ends n) i = Some e -> queue e = p :: rest -> (c = Read i \/ c = ReadTimeout i) -> take n i e p rest = Ok (x, n') -> Inv H (tr ++ [(c, x)]) n'.
Proof.
  intros V E Q C R. destruct (take_eq H tr n i e p rest V E Q) as (s & T & S1 & S2 & S3). rewrite T in R. destruct (seen p) as [[r d] f] eqn:SP. injection R as <- <-.
  destruct (v_good _ _ _ V i e E) as [G1 G2 G3 G4 G5 G6 G7 G8 G9]. rewrite Q in G9, G2. inversion G9 as [|y z FO G10]. subst y z.
  apply change_inv with e; [exact V|exact E|reflexivity|destruct C as [-> | ->]; reflexivity| |].
  - intros j J. destruct C as [-> | ->]; repeat split; cbn [got1]; replace (i =? j)%nat with false by (symmetry; apply Nat.eqb_neq; congruence); reflexivity.
  - assert (GG : got1 i (c, Got r d f) = [seen p]) by (rewrite SP; destruct C as [-> | ->]; cbn [got1]; rewrite Nat.eqb_refl; reflexivity).
    assert (FF : f = map Some (snd p)) by (unfold seen in SP; injection SP as _ _ <-; reflexivity).
    assert (LS : last_src i (tr ++ [(c, Got r d f)]) = Some (map Some (snd p))) by (rewrite last_src_snoc, GG, SP, FF; reflexivity).
    split; cbn [so lport nonblock queue].
    + rewrite mode_snoc. destruct C as [-> | ->]; exact G1.
    + rewrite arrivals_snoc, got_snoc, GG. replace (arrival1 H i (fold_left bound1 tr []) (c, Got r d f)) with (@nil (list Z * list Z)) by (destruct C as [-> | ->]; reflexivity). rewrite app_nil_r, G2, <- app_assoc. reflexivity.
    + rewrite dest_snoc, S1. destruct C as [-> | ->]; exact G3.
    + rewrite dest_snoc. destruct C as [-> | ->]; exact G4.
    + rewrite LS. exact S2.
    + rewrite LS. exists (snd p). split; [exact FO|reflexivity].
    + exact S3.
    + exact G8.
    + exact G10.
Qed.
(** What source() holds is parsed as the specification reads it. *)
Lemma source_ok H tr i e : good H tr i e -> last_src i tr <> None -> exists a p, ip a /\ 0 < p < 65536 /\ last_src i tr = Some (map Some (sockaddr a p)) /\ inet_target (mSource (so e)) = Ok (Some (a, p)).
Proof.
  intros [_ _ _ _ G5 G6 _ _ _] N. rewrite G5. destruct (last_src i tr) as [c|]; [|congruence]. destruct G6 as (f & (a & p & A & P & ->) & ->). exists a, p. split; [exact A|]. split; [exact P|]. split; [reflexivity|]. cbn [src_cells]. apply target_sockaddr; assumption.
Qed.
Lemma seen_got p : (let '(r, d, f) := seen p in Got r d f) = Got (Z.of_nat (length (firstn 1500 (fst p)))) (map Some (firstn 1500 (fst p))) (map Some (snd p)).
Proof. reflexivity. Qed.
Lemma own_mode H tr n i e b c : Inv H tr n -> get (ends n) i = Some e -> c = NonBlocking i /\ b = true \/ c = Blocking i /\ b = false -> Inv H (tr ++ [(c, Done)]) (change n i (End (so e) (lport e) b (queue e))).
Proof.
  intros V E C. apply change_inv with e; [exact V|exact E|reflexivity|destruct C as [[-> _]|[-> _]]; reflexivity| |].
  - intros j J. destruct C as [[-> _]|[-> _]]; unfold quiet; cbn [mode1 fst]; replace (i =? j)%nat with false by (symmetry; apply Nat.eqb_neq; congruence); repeat split.
  - destruct (v_good _ _ _ V i e E) as [G1 G2 G3 G4 G5 G6 G7 G8 G9].
    assert (GN : got1 i (c, Done) = [] /\ arrival1 H i (bound tr) (c, Done) = [] /\ dest1 H i (dest_of H i tr) (c, Done) = dest_of H i tr) by (destruct C as [[-> _]|[-> _]]; repeat split).
    destruct GN as (N1 & N2 & N3). split; cbn [so lport nonblock queue]; try assumption.
    + rewrite mode_snoc. destruct C as [[-> ->]|[-> ->]]; cbn [mode1 fst]; rewrite Nat.eqb_refl; reflexivity.
    + rewrite arrivals_snoc, got_snoc, N1, app_nil_r. fold (bound tr). rewrite N2, app_nil_r. exact G2.
    + rewrite dest_snoc, N3. exact G3.
    + rewrite dest_snoc, N3. exact G4.
    + rewrite last_src_snoc, N1. exact G5.
    + rewrite last_src_snoc, N1. exact G6.
Qed.
Lemma own_dest H tr n i e port name x n' : proper H -> 0 <= port < 65536 -> Inv H tr n -> get (ends n) i = Some e ->
  step H n (Destination i port name) = Ok (x, n') -> Inv H (tr ++ [(Destination i port name, x)]) n' /\ x = Done.
Proof.
  intros PH PP V E R. cbn [step] in R. rewrite E in R. pose proof (v_good _ _ _ V i e E) as G. rewrite (g_dest _ _ _ _ G) in R.
  assert (Q : forall j, j <> i -> quiet H tr (Destination i port name, Done) j).
  { intros j J. unfold quiet. cbn [mode1 fst dest1]. replace (i =? j)%nat with false by (symmetry; apply Nat.eqb_neq; congruence). repeat split. }
  assert (K : forall d, dest1 H i (dest_of H i tr) (Destination i port name, Done) = d -> match d with Some (a, p) => ip a /\ 0 <= p < 65536 | None => True end ->
    Inv H (tr ++ [(Destination i port name, Done)]) (change n i (End (Sock (dest_cells d) (mSource (so e)) (userbuf (so e))) (lport e) (nonblock e) (queue e)))).
  { intros d Dd Ok. destruct G as [G1 G2 G3 G4 G5 G6 G7 G8 G9]. apply change_inv with e; [exact V|exact E|reflexivity|reflexivity|exact Q|]. split; cbn [so lport nonblock queue mDestination mSource userbuf]; try assumption.
    - rewrite mode_snoc. exact G1.
    - rewrite arrivals_snoc, got_snoc. cbn [got1 arrival1]. rewrite !app_nil_r. exact G2.
    - rewrite dest_snoc, Dd. reflexivity.
    - rewrite dest_snoc, Dd. exact Ok.
    - rewrite last_src_snoc. exact G5.
    - rewrite last_src_snoc. exact G6. }
  cbn [dest1 fst] in K. rewrite Nat.eqb_refl in K. destruct (rv H name) as [[ty a]|] eqn:RV.
  - destruct (Z.eq_dec ty 2) as [->|NT].
    + pose proof (proj1 PH name 2 a RV eq_refl) as A. rewrite (resolve_dest (rv H) (dest_of H i tr) name port a RV A) in R by (pose proof (g_dok _ _ _ _ G) as X; destruct (dest_of H i tr) as [[b q]|]; [exact (proj1 X)|exact Logic.I]).
      cbn [bind] in R. injection R as <- <-. split; [|reflexivity]. apply (K (Some (a, port))); [reflexivity|split; assumption].
    + unfold resolveAddress in R. rewrite RV in R. replace (negb (ty =? AF_INET)) with true in R by (symmetry; apply Bool.negb_true_iff, Z.eqb_neq; exact NT). cbn [bind] in R. injection R as <- <-. split; [|reflexivity].
      apply (K (dest_of H i tr)); [|exact (g_dok _ _ _ _ G)]. destruct ty as [|q|q]; try reflexivity. destruct q as [q|q|]; try reflexivity. destruct q; try reflexivity. congruence.
  - unfold resolveAddress in R. rewrite RV in R. cbn [bind] in R. injection R as <- <-. split; [|reflexivity]. apply (K (dest_of H i tr)); [reflexivity|exact (g_dok _ _ _ _ G)].
Qed.
Lemma open_inv H tr n port chosen ok x n' : 0 <= port < 65536 -> Inv H tr n -> step H n (Open port chosen ok) = Ok (x, n') -> Inv H (tr ++ [(Open port chosen ok, x)]) n'.
Proof.
  intros PP V R. cbn [step] in R. destruct ok; cbn [negb] in R; [|injection R as <- <-; apply same_inv; [exact V|reflexivity|intros j; repeat split]].
  destruct ((port =? 0) && _) eqn:C; [discriminate|]. injection R as <- <-. set (p := if port =? 0 then chosen else port).
  assert (P : 0 < p < 65536).
  { unfold p. destruct (port =? 0) eqn:Z0; [|lia]. cbn [andb] in C. apply Bool.orb_false_iff in C. destruct C as [C _]. apply Bool.orb_false_iff in C. lia. }
  assert (Q : forall j, quiet H tr (Open port chosen true, Opened (made n) p) j) by (intros j; repeat split).
  destruct V as [N M B G W]. assert (NI : ~ In (made n) (map fst (ends n))) by (intros I; specialize (M _ I); lia). split; cbn [ends made map fst].
  - constructor; assumption.
  - intros i [<-|I]; [lia|]. specialize (M i I). lia.
  - rewrite bound_snoc. cbn [bound1]. rewrite B. reflexivity.
  - intros i e. cbn [get]. destruct (Nat.eqb_spec (made n) i) as [<-|D]; [|intros E; apply quiet_good; [apply Q|exact (G i e E)]]. intros E. injection E as <-.
    destruct (quiet_new H tr _ _ (Q (made n)) (W (made n) (Nat.le_refl _))) as (W1 & W2 & W3 & W4). assert (LS : last_src (made n) (tr ++ [(Open port chosen true, Opened (made n) p)]) = None) by (unfold last_src; rewrite W3; reflexivity).
    split; cbn [so lport nonblock queue].
    + symmetry. exact W1.
    + rewrite W2, W3. reflexivity.
    + rewrite W4. reflexivity.
    + rewrite W4. exact Logic.I.
    + rewrite LS. reflexivity.
    + rewrite LS. exact Logic.I.
    + reflexivity.
    + exact P.
    + constructor.
  - intros i Hi. apply quiet_new; [apply Q|]. apply W. lia.
Qed.
Lemma filter_keys (l : list (nat * endpoint)) i : map fst (filter (fun x => negb (fst x =? i)%nat) l) = filter (fun k => negb (k =? i)%nat) (map fst l).
Proof. induction l as [|[k y] l IH]; [reflexivity|]. cbn [filter map fst]. destruct (k =? i)%nat; cbn [negb map fst]; rewrite IH; reflexivity. Qed.
Lemma filter_ports l i : filter (fun y => negb (fst y =? i)%nat) (ports l) = ports (filter (fun x => negb (fst x =? i)%nat) l).
Proof. induction l as [|[k y] l IH]; [reflexivity|]. cbn [filter ports map fst snd]. destruct (k =? i)%nat; cbn [negb ports map fst snd]; [exact IH|]. f_equal. exact IH. Qed.
Lemma destroy_inv H tr n i : Inv H tr n -> Inv H (tr ++ [(Destroy i, Done)]) (Net (filter (fun x => negb (fst x =? i)%nat) (ends n)) (made n)).
Proof.
  intros [N M B G W]. assert (Q : forall j, quiet H tr (Destroy i, Done) j) by (intros j; repeat split). split; cbn [ends made].
  - rewrite filter_keys. apply NoDup_filter, N.
  - intros j. rewrite filter_keys. intros I. apply filter_In in I. exact (M j (proj1 I)).
  - rewrite bound_snoc. cbn [bound1]. rewrite B. apply filter_ports.
  - intros j e. rewrite get_filter. destruct (i =? j)%nat; [discriminate|]. intros E. apply quiet_good; [apply Q|exact (G j e E)].
  - intros j J. apply quiet_new; [apply Q|exact (W j J)].
Qed.
Lemma upto_nul_eq m : upto_nul m = message_of m.
Proof. unfold message_of. induction m as [|c m IH]; [reflexivity|]. cbn [upto_nul c_str]. destruct (c =? 0); [reflexivity|]. cbn [app]. rewrite IH. reflexivity. Qed.
Lemma sending_step H tr n c i e : Inv H tr n -> sending c -> caller c = Some i -> get (ends n) i = Some e -> proper_dest c ->
  (exists d dest, target H tr c d /\ (match d with Some (a, p) => ip a | None => True end) /\ inet_target dest = Ok (match d with Some (a, p) => if p =? 0 then None else Some (a, p) | None => None end) /\ step H n c = send_ H n i e dest (text_of c) (fate_of c)) \/
  (last_src i tr = None /\ (match c with WriteBack _ _ _ | WriteBackText _ _ _ => True | _ => False end) /\ step H n c = UB).
Proof.
  intros V SC CC E PD. pose proof (v_good _ _ _ V i e E) as G.
  assert (DD : match dest_of H i tr with Some (a, _) => ip a | None => True end) by (pose proof (g_dok _ _ _ _ G) as X; destruct (dest_of H i tr) as [[a p]|]; [exact (proj1 X)|exact Logic.I]).
  destruct c; try destruct SC; cbn [caller] in CC; injection CC as ->; cbn [step target text_of fate_of]; rewrite E, ?upto_nul_eq.
  - left. exists (dest_of H i tr), (mDestination (so e)). split; [reflexivity|]. split; [exact DD|]. split; [rewrite (g_dest _ _ _ _ G); apply target_dest; exact (g_dok _ _ _ _ G)|reflexivity].
  - left. exists (dest_of H i tr), (mDestination (so e)). split; [reflexivity|]. split; [exact DD|]. split; [rewrite (g_dest _ _ _ _ G); apply target_dest; exact (g_dok _ _ _ _ G)|reflexivity].
  - destruct (last_src i tr) as [c|] eqn:L.
    + left. destruct (source_ok H tr i e G ltac:(congruence)) as (a & p & A & P & LS & T). exists (Some (a, p)), (mSource (so e)). split; [exists a, p; rewrite L in LS; exact (conj A (conj P (conj LS eq_refl)))|]. split; [exact A|]. split; [replace (p =? 0) with false by lia; exact T|reflexivity].
    + right. split; [reflexivity|]. split; [exact Logic.I|]. unfold send_. rewrite (g_src _ _ _ _ G), L. cbn [src_cells]. rewrite target_blank. reflexivity.
  - destruct (last_src i tr) as [c|] eqn:L.
    + left. destruct (source_ok H tr i e G ltac:(congruence)) as (a & p & A & P & LS & T). exists (Some (a, p)), (mSource (so e)). split; [exists a, p; rewrite L in LS; exact (conj A (conj P (conj LS eq_refl)))|]. split; [exact A|]. split; [replace (p =? 0) with false by lia; exact T|reflexivity].
    + right. split; [reflexivity|]. split; [exact Logic.I|]. unfold send_. rewrite (g_src _ _ _ _ G), L. cbn [src_cells]. rewrite target_blank. reflexivity.
  - left. destruct PD as (a & p & r & A & P & ->). exists (Some (a, p)), (map Some ([2; 0] ++ net_short p ++ a) ++ r). split; [exists a, p, r; exact (conj A (conj P (conj eq_refl eq_refl)))|]. split; [exact A|]. split; [apply target_bytes; assumption|reflexivity].
  - left. destruct PD as (a & p & r & A & P & ->). exists (Some (a, p)), (map Some ([2; 0] ++ net_short p ++ a) ++ r). split; [exists a, p, r; exact (conj A (conj P (conj eq_refl eq_refl)))|]. split; [exact A|]. split; [apply target_bytes; assumption|reflexivity].
Qed.
Lemma step_inv H tr n o x n' : proper H -> proper_op o -> proper_dest o -> Inv H tr n -> step H n o = Ok (x, n') -> Inv H (tr ++ [(o, x)]) n'.
Proof.
  intros PH PO PD V R.
  assert (SN : forall i, sending o -> caller o = Some i -> Inv H (tr ++ [(o, x)]) n').
  { intros i SC CC. destruct (get (ends n) i) as [e|] eqn:E.
    - destruct (sending_step H tr n o i e V SC CC E PD) as [(d & dest & T & A & IT & S)|(_ & _ & S)]; [|rewrite S in R; discriminate]. rewrite S in R.
      assert (X : x = sends d (text_of o) (fate_of o)) by (rewrite (send_eq H n i e dest _ _ d IT) in R; injection R as <- _; reflexivity). subst x. exact (send_inv H tr n o i e dest _ _ d PH V E SC CC IT A n' R).
    - exfalso. destruct o; try destruct SC; cbn [caller] in CC; injection CC as ->; cbn [step] in R; rewrite E in R; discriminate. }
  destruct o as [port chosen ok|i|i|i|i|i port name|i m f|i m f|i m f|i m f|i d m f|i d m f|i|i|port data from]; try exact (SN i Logic.I eq_refl).
  - exact (open_inv H tr n port chosen ok x n' PO V R).
  - cbn [step] in R. destruct (get (ends n) i); [|discriminate]. injection R as <- <-. apply destroy_inv, V.
  - cbn [step] in R. destruct (get (ends n) i) as [e|] eqn:E; [|discriminate]. injection R as <- <-. apply own_mode; [exact V|exact E|left; split; reflexivity].
  - cbn [step] in R. destruct (get (ends n) i) as [e|] eqn:E; [|discriminate]. injection R as <- <-. apply own_mode; [exact V|exact E|right; split; reflexivity].
  - cbn [step] in R. destruct (get (ends n) i) as [e|] eqn:E; [|discriminate]. injection R as <- <-. apply same_inv; [exact V|reflexivity|intros j; repeat split].
  - destruct (get (ends n) i) as [e|] eqn:E; [|cbn [step] in R; rewrite E in R; discriminate]. exact (proj1 (own_dest H tr n i e port name x n' PH PO V E R)).
  - cbn [step] in R. destruct (get (ends n) i) as [e|] eqn:E; [|discriminate]. destruct (queue e) as [|p rest] eqn:Q.
    + destruct (nonblock e); [|discriminate]. injection R as <- <-. apply same_inv; [exact V|reflexivity|intros j; repeat split].
    + exact (take_inv H tr n i e p rest (Read i) x n' V E Q (or_introl eq_refl) R).
  - cbn [step] in R. destruct (get (ends n) i) as [e|] eqn:E; [|discriminate]. destruct (queue e) as [|p rest] eqn:Q.
    + injection R as <- <-. apply same_inv; [exact V|reflexivity|intros j; repeat split].
    + exact (take_inv H tr n i e p rest (ReadTimeout i) x n' V E Q (or_intror eq_refl) R).
  - cbn [step] in R. injection R as <- <-. apply deliver_inv; [exact V|reflexivity|exact PO|intros j; repeat split|intros j; reflexivity].
Qed.
Lemma inv0 H : Inv H [] net0.
Proof. split; cbn [net0 ends made map]; [constructor|intros i []|reflexivity|intros i e E; discriminate E|intros i _; repeat split]. Qed.
Lemma run_inv H l tr n : proper H -> Forall (fun o => proper_op o /\ proper_dest o) l -> run H net0 l = Ok (tr, n) -> Inv H tr n /\ map fst tr = l.
Proof.
  intros PH. revert tr n. induction l as [|o l IH] using rev_ind; intros tr n F R.
  - apply Ok_inj in R. injection R as <- <-. split; [apply inv0|reflexivity].
  - rewrite run_snoc in R. apply bind_ok in R. destruct R as ([xs m] & R1 & R). apply bind_ok in R. destruct R as ([x k] & R2 & R). apply Ok_inj in R. injection R as <- <-.
    apply Forall_app in F. destruct F as [F1 F2]. inversion F2 as [|y z [PO PD] _]. subst y z. destruct (IH xs m F1 R1) as [V ML]. split; [exact (step_inv H xs m o x k PH PO PD V R2)|]. rewrite map_app, ML. reflexivity.
Qed.
