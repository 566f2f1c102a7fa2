(** C100: UDPSockets talking to each other. *)
From Verif Require Import Base BaseFacts UtilsModel ConfigModel SocketModel NetModel NetSpec NetProofs.
Local Open Scope Z_scope.

(** A state reached by calls. *)
Definition reached (H : host) (tr : trace) (n : net) : Prop :=
  proper H /\ exists l, Forall (fun o => proper_op o /\ proper_dest o) l /\ run H net0 l = Ok (tr, n).
Lemma reached_inv H tr n : reached H tr n -> Inv H tr n.
Proof. intros (PH & l & F & R). exact (proj1 (run_inv H l tr n PH F R)). Qed.
Lemma reached_step H tr n o x n' : reached H tr n -> proper_op o -> proper_dest o -> step H n o = Ok (x, n') -> reached H (tr ++ [(o, x)]) n'.
Proof.
  intros (PH & l & F & R) PO PD T. split; [exact PH|]. exists (l ++ [o]). split; [apply Forall_app; split; [exact F|constructor; [split; assumption|constructor]]|].
  rewrite run_snoc, R. cbn [bind]. rewrite T. reflexivity.
Qed.
Lemma reached_back H tr x n : reached H (tr ++ [x]) n -> exists m, reached H tr m /\ proper_op (fst x) /\ proper_dest (fst x) /\ step H m (fst x) = Ok (snd x, n).
Proof.
  intros (PH & l & F & R). pose proof (proj2 (run_inv H l _ n PH F R)) as ML. rewrite map_app in ML. cbn [map] in ML. subst l. apply Forall_app in F. destruct F as [F1 F2]. inversion F2 as [|y z [PO PD] _]. subst y z.
  rewrite run_snoc in R. apply bind_ok in R. destruct R as ([xs m] & R1 & R). apply bind_ok in R. destruct R as ([y k] & R2 & R). apply Ok_inj in R. injection R as R <-. apply app_inj_tail in R. destruct R as [<- <-].
  exists m. split; [split; [exact PH|]; exists (map fst xs); split; assumption|]. split; [exact PO|]. split; [exact PD|exact R2].
Qed.
Lemma alive H tr n i p : Inv H tr n -> port_of (bound tr) i = Some p -> exists e, get (ends n) i = Some e /\ lport e = p.
Proof. intros V P. rewrite (v_bound _ _ _ V), port_of_ports in P. destruct (get (ends n) i) as [e|]; [|discriminate]. injection P as <-. exists e. split; reflexivity. Qed.

(** Packets are read in the order they arrived, each once, none invented: what a socket has read, and will, is how the packets
    that arrived look, one by one. *)
Theorem C100_fifo H tr n i : reached H tr n -> exists rest, map seen (arrivals H i [] tr) = got i tr ++ rest.
Proof.
  revert n. induction tr as [|x tr IH] using rev_ind; intros n R; [exists []; reflexivity|].
  destruct (reached_back H tr x n R) as (m & R' & PO & PD & T). rewrite arrivals_snoc, got_snoc, map_app. destruct (got1 i x) as [|g gs] eqn:G1.
  - destruct (IH m R') as (rest & E). exists (rest ++ map seen (arrival1 H i (fold_left bound1 tr []) x)). rewrite E, app_nil_r, app_assoc. reflexivity.
  - assert (L : exists e, get (ends n) i = Some e).
    { destruct x as [c y]. destruct c; try discriminate G1; destruct y; try discriminate G1; cbn [got1] in G1; destruct (Nat.eqb_spec i0 i) as [->|]; try discriminate G1; cbn [fst snd step] in T;
        (destruct (get (ends m) i) as [e|] eqn:E; [|discriminate]); (destruct (queue e) as [|p rest] eqn:Q; [try (destruct (nonblock e)); discriminate|]);
        destruct (take_eq H tr m i e p rest (reached_inv _ _ _ R') E Q) as (s & TK & _); rewrite TK in T; apply Ok_inj in T; injection T as _ _ _ <-; cbn [change ends]; rewrite get_put, Nat.eqb_refl, E; eexists; reflexivity. }
    destruct L as (e & E). pose proof (g_queue _ _ _ _ (v_good _ _ _ (reached_inv _ _ _ R) i e E)) as Q. rewrite arrivals_snoc, got_snoc, map_app, G1 in Q. exists (map seen (queue e)). exact Q.
Qed.
Print Assumptions C100_fifo.

(** The next read gives the first packet not yet read; with none, read waits just if the socket is blocking, read with a timeout returns. *)
Theorem C100_read H tr n i p : reached H tr n -> port_of (bound tr) i = Some p ->
  match skipn (length (got i tr)) (map seen (arrivals H i [] tr)) with
  | (r, d, f) :: _ => exists n', step H n (Read i) = Ok (Got r d f, n') /\ step H n (ReadTimeout i) = Ok (Got r d f, n')
  | [] => step H n (Read i) = (if mode i tr then Ok (Empty, n) else Diverge) /\ step H n (ReadTimeout i) = Ok (Empty, n)
  end.
Proof.
  intros R P. pose proof (reached_inv _ _ _ R) as V. destruct (alive H tr n i p V P) as (e & E & _). pose proof (v_good _ _ _ V i e E) as G. rewrite (g_queue _ _ _ _ G), skipn_app, skipn_all, Nat.sub_diag.
  cbn [skipn app step]. rewrite E. destruct (queue e) as [|q rest] eqn:Q; cbn [map].
  - rewrite (g_mode _ _ _ _ G). split; reflexivity.
  - destruct (take_eq H tr n i e q rest V E Q) as (s & T & _). rewrite T. destruct (seen q) as [[r d] f]. exists (change n i (End s (lport e) (nonblock e) rest)). split; reflexivity.
Qed.
Print Assumptions C100_read.

(** A call that sends gives its packet to the address of its kind: write to the destination last set, writeBack to the sender of the packet
    last read, send to the address given; and returns the number of bytes, or -1.  Only a writeBack before the first packet read is undefined. *)
Theorem C100_send H tr n i p c : reached H tr n -> port_of (bound tr) i = Some p -> sending c -> caller c = Some i -> proper_dest c ->
  match c with
  | WriteBack _ _ _ | WriteBackText _ _ _ => got i tr = [] /\ step H n c = UB
  | _ => False
  end \/ exists d n', target H tr c d /\ step H n c = Ok (sends d (text_of c) (fate_of c), n').
Proof.
  intros R P SC CC PD. pose proof (reached_inv _ _ _ R) as V. destruct (alive H tr n i p V P) as (e & E & _).
  destruct (sending_step H tr n c i e V SC CC E PD) as [(d & dest & T & A & IT & X)|(L & B & X)].
  - right. exists d. eexists. split; [exact T|]. rewrite X, (send_eq H n i e dest _ _ d IT). reflexivity.
  - left. assert (G : got i tr = []) by (unfold last_src in L; destruct (rev (got i tr)) as [|[[r d] f] t] eqn:Y; [apply (f_equal (@rev _)) in Y; rewrite rev_involutive in Y; exact Y|discriminate]).
    destruct c; try destruct B; split; assumption.
Qed.
Print Assumptions C100_send.

(** port() gives the port the socket was opened with.  Opened with 0 it is a port of 1..65535 that no other socket had. *)
Theorem C100_port H tr n i p : reached H tr n -> port_of (bound tr) i = Some p -> step H n (Port i) = Ok (IsPort p, n) /\ 0 < p < 65536.
Proof. intros R P. pose proof (reached_inv _ _ _ R) as V. destruct (alive H tr n i p V P) as (e & E & <-). cbn [step]. rewrite E. split; [reflexivity|exact (g_port _ _ _ _ (v_good _ _ _ V i e E))]. Qed.
Print Assumptions C100_port.
Theorem C100_open H tr n port chosen ok i p n' : reached H tr n -> 0 <= port < 65536 -> step H n (Open port chosen ok) = Ok (Opened i p, n') ->
  ~ In i (map fst (bound tr)) /\ 0 < p < 65536 /\ (port <> 0 -> p = port) /\ (port = 0 -> ~ In p (map snd (bound tr))) /\
  got i tr = [] /\ arrivals H i [] tr = [] /\ mode i tr = false /\ dest_of H i tr = None.
Proof.
  intros R PP T. pose proof (reached_inv _ _ _ R) as V. cbn [step] in T. destruct ok; cbn [negb] in T; [|discriminate]. destruct ((port =? 0) && _) eqn:C; [discriminate|]. apply Ok_inj in T. injection T as <- <- _.
  destruct (v_new _ _ _ V (made n) (Nat.le_refl _)) as (W1 & W2 & W3 & W4). rewrite (v_bound _ _ _ V), keys_ports.
  assert (P : port = 0 -> 0 < chosen < 65536 /\ existsb (fun x => lport (snd x) =? chosen) (ends n) = false).
  { intros ->. cbn [Z.eqb andb] in C. apply Bool.orb_false_iff in C. destruct C as [C ->]. split; [lia|reflexivity]. }
  split; [intros I; pose proof (v_made _ _ _ V _ I); lia|]. split; [destruct (Z.eqb_spec port 0) as [Z0|]; [exact (proj1 (P Z0))|lia]|]. split; [intros N; replace (port =? 0) with false by lia; reflexivity|].
  split; [|repeat split; assumption]. intros Z0. replace (port =? 0) with true by lia. destruct (P Z0) as [_ X]. unfold ports. rewrite map_map. cbn [snd]. intros I. apply in_map_iff in I. destruct I as (y & Y & I).
  assert (existsb (fun x => lport (snd x) =? chosen) (ends n) = true) by (apply existsb_exists; exists y; split; [exact I|lia]). congruence.
Qed.
Print Assumptions C100_open.

(** No call is undefined but that writeBack; and only a blocking read waits. *)
Theorem C100_defined H tr n o : reached H tr n -> proper_op o -> proper_dest o -> match caller o with Some i => exists p, port_of (bound tr) i = Some p | None => True end ->
  match o with
  | Open port chosen ok => ok = true -> port = 0 -> 0 < chosen < 65536 /\ ~ In chosen (map snd (bound tr))
  | WriteBack i _ _ | WriteBackText i _ _ => got i tr <> []
  | Read i => mode i tr = true \/ length (got i tr) <> length (arrivals H i [] tr)
  | _ => True
  end <-> exists x n', step H n o = Ok (x, n').
Proof.
  intros R PO PD A. pose proof (reached_inv _ _ _ R) as V.
  assert (SN : forall i, sending o -> caller o = Some i -> match o with WriteBack i _ _ | WriteBackText i _ _ => got i tr <> [] | _ => True end <-> exists x n', step H n o = Ok (x, n')).
  { intros i SC CC. rewrite CC in A. destruct A as (p & P). split.
    - intros B. destruct (C100_send H tr n i p o R P SC CC PD) as [X|(d & n' & _ & X)]; [|exists (sends d (text_of o) (fate_of o)), n'; exact X].
      exfalso. destruct o; try destruct X; injection CC as ->; contradiction.
    - intros (x & n' & X). destruct o; try exact Logic.I; injection CC as ->; intros G; (destruct (alive H tr n i p V P) as (e & E & _)); cbn [step] in X; rewrite E in X; unfold send_ in X; rewrite (g_src _ _ _ _ (v_good _ _ _ V i e E)) in X; unfold last_src in X; rewrite G in X; cbn [rev src_cells] in X; rewrite target_blank in X; discriminate X. }
  destruct o as [port chosen ok|i|i|i|i|i port name|i m f|i m f|i m f|i m f|i d m f|i d m f|i|i|port data from]; try exact (SN i Logic.I eq_refl); cbn [caller] in A.
  - cbn [step]. rewrite (v_bound _ _ _ V). unfold ports. rewrite map_map. cbn [snd]. split.
    + intros C. destruct ok; cbn [negb]; [|eexists; eexists; reflexivity]. destruct (Z.eqb_spec port 0) as [Z0|]; cbn [andb]; [|eexists; eexists; reflexivity]. destruct (C eq_refl Z0) as [C1 C2].
      replace (existsb _ (ends n)) with false; [replace (chosen <=? 0) with false by lia; replace (65535 <? chosen) with false by lia; eexists; eexists; reflexivity|].
      symmetry. apply Bool.not_true_iff_false. intros X. apply existsb_exists in X. destruct X as (y & I & Y). apply C2, in_map_iff. exists y. split; [lia|exact I].
    + intros (x & n' & X) -> ->. cbn [negb Z.eqb andb] in X. destruct (_ || _) eqn:C in X; [discriminate|]. apply Bool.orb_false_iff in C. destruct C as [C D]. split; [lia|]. intros I. apply in_map_iff in I. destruct I as (y & Y & I).
      assert (existsb (fun x => lport (snd x) =? chosen) (ends n) = true) by (apply existsb_exists; exists y; split; [exact I|lia]). congruence.
  - destruct A as (p & P). destruct (alive H tr n i p V P) as (e & E & _). split; [intros _|intros _; exact Logic.I]. cbn [step]. rewrite E. eexists; eexists; reflexivity.
  - destruct A as (p & P). destruct (alive H tr n i p V P) as (e & E & _). split; [intros _|intros _; exact Logic.I]. cbn [step]. rewrite E. eexists; eexists; reflexivity.
  - destruct A as (p & P). destruct (alive H tr n i p V P) as (e & E & _). split; [intros _|intros _; exact Logic.I]. cbn [step]. rewrite E. eexists; eexists; reflexivity.
  - destruct A as (p & P). destruct (alive H tr n i p V P) as (e & E & _). split; [intros _|intros _; exact Logic.I]. cbn [step]. rewrite E. eexists; eexists; reflexivity.
  - destruct A as (p & P). destruct (alive H tr n i p V P) as (e & E & _). split; [intros _|intros _; exact Logic.I]. cbn [step]. rewrite E. pose proof (v_good _ _ _ V i e E) as G. rewrite (g_dest _ _ _ _ G).
    destruct (rv H name) as [[ty a]|] eqn:RV; [|unfold resolveAddress; rewrite RV; eexists; eexists; reflexivity]. destruct (Z.eq_dec ty 2) as [->|NT].
    + pose proof (proj1 (proj1 R) name 2 a RV eq_refl) as Ia. rewrite (resolve_dest (rv H) (dest_of H i tr) name port a RV Ia) by (pose proof (g_dok _ _ _ _ G) as X; destruct (dest_of H i tr) as [[b q]|]; [exact (proj1 X)|exact Logic.I]). eexists; eexists; reflexivity.
    + unfold resolveAddress. rewrite RV. replace (negb (ty =? AF_INET)) with true by (symmetry; apply Bool.negb_true_iff, Z.eqb_neq; exact NT). eexists; eexists; reflexivity.
  - destruct A as (p & P). pose proof (C100_read H tr n i p R P) as X. destruct (C100_fifo H tr n i R) as (rest & F). pose proof (f_equal (@length _) F) as FL. rewrite map_length, app_length in FL. rewrite F, skipn_app, skipn_all, Nat.sub_diag in X. cbn [skipn app] in X.
    destruct rest as [|[[r d] f] rest]; cbn [length] in FL.
    + destruct X as [X _]. rewrite X. destruct (mode i tr); [split; [intros _; eexists; eexists; reflexivity|left; reflexivity]|]. split; [intros [?|?]; [discriminate|lia]|intros (x & n' & Y); discriminate Y].
    + destruct X as (n' & X & _). split; [intros _; exists (Got r d f), n'; exact X|right; lia].
  - destruct A as (p & P). split; [intros _|intros _; exact Logic.I]. pose proof (C100_read H tr n i p R P) as X. destruct (skipn _ _) as [|[[r d] f] t]; [exists Empty, n; exact (proj2 X)|]. destruct X as (n' & _ & X). exists (Got r d f), n'. exact X.
  - split; [intros _; eexists; eexists; reflexivity|intros _; exact Logic.I].
Qed.
Print Assumptions C100_defined.

(** All that came is read. *)
Definition drained (H : host) (i : nat) (tr : trace) : Prop := length (got i tr) = length (arrivals H i [] tr).
Lemma skip_one H i tr x y : drained H i tr -> got1 i x = [] -> arrival1 H i (bound tr) x = [y] -> skipn (length (got i (tr ++ [x]))) (map seen (arrivals H i [] (tr ++ [x]))) = [seen y].
Proof.
  intros D G A. rewrite got_snoc, arrivals_snoc, G, app_nil_r. fold (bound tr). rewrite A, map_app, skipn_app, D, map_length, Nat.sub_diag. rewrite skipn_all2 by (rewrite map_length; lia). reflexivity.
Qed.

Lemma head_inj a p r b q s : ip a -> ip b -> 0 <= p < 65536 -> 0 <= q < 65536 -> map Some ([2; 0] ++ net_short p ++ a) ++ r = map Some ([2; 0] ++ net_short q ++ b) ++ s -> (a, p) = (b, q).
Proof.
  intros A B P Q E. assert (T : Ok (if p =? 0 then None else Some (a, p)) = Ok (if q =? 0 then None else Some (b, q))) by (rewrite <- (target_bytes a p r A P), <- (target_bytes b q s B Q), E; reflexivity).
  apply Ok_inj in T. destruct (Z.eqb_spec p 0) as [->|]; destruct (Z.eqb_spec q 0) as [->|]; try discriminate T; [|injection T as -> ->; reflexivity].
  destruct A as [A _], B as [B _]. destruct (four a A) as (x & y & z & w & ->). destruct (four b B) as (x' & y' & z' & w' & ->). cbn [net_short map app] in E. injection E as -> -> -> -> _. reflexivity.
Qed.
Lemma sockaddr_head a p : map Some (sockaddr a p) = map Some ([2; 0] ++ net_short p ++ a) ++ map Some (repeat 0 8).
Proof. rewrite <- map_app. unfold sockaddr. rewrite <- !app_assoc. reflexivity. Qed.
Lemma some_inj {A} (x y : A) : Some x = Some y -> x = y.
Proof. congruence. Qed.
Lemma target_fun H tr c d d' : target H tr c d -> target H tr c d' -> d = d'.
Proof.
  destruct c; cbn [target]; try contradiction.
  - congruence.
  - congruence.
  - intros (a & p & A & P & L & ->) (b & q & B & Q & M & ->). rewrite L in M. apply some_inj in M. rewrite !sockaddr_head in M. apply (f_equal Some). eapply head_inj; [exact A|exact B| | |exact M]; lia.
  - intros (a & p & A & P & L & ->) (b & q & B & Q & M & ->). rewrite L in M. apply some_inj in M. rewrite !sockaddr_head in M. apply (f_equal Some). eapply head_inj; [exact A|exact B| | |exact M]; lia.
  - intros (a & p & r & A & P & -> & ->) (b & q & s & B & Q & M & ->). f_equal. eapply head_inj; [exact A|exact B|exact P|exact Q|exact M].
  - intros (a & p & r & A & P & -> & ->) (b & q & s & B & Q & M & ->). f_equal. eapply head_inj; [exact A|exact B|exact P|exact Q|exact M].
Qed.

(** A packet written to an address of this host arrives at the socket bound last to the port: its next read, if all before was read, gives
    the first 1500 bytes and the sender's address and port. *)
Theorem C100_oneway H tr n c i pi j pj a : reached H tr n -> sending c -> caller c = Some i -> proper_dest c -> fate_of c = Arrives ->
  port_of (bound tr) i = Some pi -> holder (bound tr) pj = Some j -> port_of (bound tr) j = Some pj -> drained H j tr ->
  target H tr c (Some (a, pj)) -> own H a = true -> Z.of_nat (length (text_of c)) <= 65507 ->
  exists n' n'', run H n [c; Read j] = Ok ([(c, Sent (Z.of_nat (length (text_of c))) (Some ((a, pj), text_of c)) Arrives);
    (Read j, let '(r, d, f) := seen (text_of c, sockaddr (srcof H a) pi) in Got r d f)], n'') /\
    step H n c = Ok (Sent (Z.of_nat (length (text_of c))) (Some ((a, pj), text_of c)) Arrives, n').
Proof.
  intros R SC CC PD FC Pi Hj Pj D T O L. pose proof (fun d T' => target_fun H tr c d (Some (a, pj)) T' T) as U. assert (Q : 0 < pj < 65536) by exact (proj2 (C100_port H tr n j pj R Pj)).
  assert (X : exists n', step H n c = Ok (sends (Some (a, pj)) (text_of c) Arrives, n')).
  { destruct (C100_send H tr n i pi c R Pi SC CC PD) as [X|(d & n' & T' & X)].
    - exfalso. destruct c; try destruct X; cbn [target] in T; destruct T as (b & q & _ & _ & LS & _); unfold last_src in LS; injection CC as ->; rewrite H0 in LS; discriminate LS.
    - rewrite (U d T'), FC in X. exists n'. exact X. }
  destruct X as (n' & X). cbn [sends] in X. replace (Z.of_nat (length (text_of c)) <=? 65507) with true in X by lia. replace (pj =? 0) with false in X by lia. cbn [andb negb] in X.
  assert (PO : proper_op c) by (destruct c; try destruct SC; exact Logic.I).
  pose proof (reached_step H tr n c _ n' R PO PD X) as R'. set (x := (c, Sent (Z.of_nat (length (text_of c))) (Some ((a, pj), text_of c)) Arrives)) in *.
  assert (B : bound (tr ++ [x]) = bound tr) by (rewrite bound_snoc; unfold x; destruct c; try destruct SC; reflexivity).
  assert (G : got1 j x = []) by (unfold x; destruct c; try destruct SC; reflexivity).
  assert (A : arrival1 H j (bound tr) x = [(text_of c, sockaddr (srcof H a) pi)]) by (unfold x; destruct c; try destruct SC; cbn [arrival1]; cbn [caller] in *; injection CC as ->; rewrite Pi, O, Hj, Nat.eqb_refl; reflexivity).
  pose proof (C100_read H (tr ++ [x]) n' j pj R') as Y. rewrite B in Y. specialize (Y Pj). rewrite (skip_one H j tr x _ D G A) in Y. destruct (seen (text_of c, sockaddr (srcof H a) pi)) as [[r d] f]. destruct Y as (n'' & Y & _).
  exists n', n''. split; [|exact X]. cbn [run]. rewrite X. cbn [bind]. rewrite Y. reflexivity.
Qed.
Print Assumptions C100_oneway.

(** Request and answer: [i] writes to [j], which reads and writes back, and [i] reads.  Both get what the other sent, for all messages of at
    most 1500 bytes, whatever was sent before, if no other socket was bound to their ports later. *)
Theorem C100_echo H tr n i pi j pj a m m' : reached H tr n -> i <> j -> port_of (bound tr) i = Some pi -> port_of (bound tr) j = Some pj ->
  holder (bound tr) pi = Some i -> holder (bound tr) pj = Some j -> drained H i tr -> drained H j tr -> dest_of H i tr = Some (a, pj) -> ip a -> own H a = true ->
  (length m <= 1500)%nat -> (length m' <= 1500)%nat ->
  let a' := srcof H a in let sz (l : list Z) := Z.of_nat (length l) in
  exists n', run H n [Write i m Arrives; Read j; WriteBack j m' Arrives; Read i] = Ok ([
    (Write i m Arrives, Sent (sz m) (Some ((a, pj), m)) Arrives); (Read j, Got (sz m) (map Some m) (map Some (sockaddr a' pi)));
    (WriteBack j m' Arrives, Sent (sz m') (Some ((a', pi), m')) Arrives); (Read i, Got (sz m') (map Some m') (map Some (sockaddr (srcof H a') pj)))], n').
Proof.
  intros R IJ Pi Pj Hi Hj Di Dj DA IA OA L L' a' sz. destruct (proj2 (proj1 R) a IA OA) as [IA' OA'].
  destruct (C100_oneway H tr n (Write i m Arrives) i pi j pj a R Logic.I eq_refl Logic.I eq_refl Pi Hj Pj Dj (eq_sym DA) OA ltac:(cbn [text_of]; lia)) as (n1 & n2 & R2 & _). cbn [text_of] in R2. fold a' in R2.
  assert (RA : forall k l tr l', reached H tr k -> Forall (fun o => proper_op o /\ proper_dest o) l -> run H k l = Ok l' -> reached H (tr ++ fst l') (snd l')).
  { clear. intros k l. revert k. induction l as [|o l IH]; intros k tr [xs k'] R F E; [apply Ok_inj in E; injection E as <- <-; cbn [fst snd]; rewrite app_nil_r; exact R|].
    inversion F as [|y z [PO PD] F']. subst y z. cbn [run] in E. apply bind_ok in E. destruct E as ([x k1] & E1 & E). apply bind_ok in E. destruct E as ([ys k2] & E2 & E). apply Ok_inj in E. injection E as <- <-. cbn [fst snd].
    pose proof (IH k1 (tr ++ [(o, x)]) (ys, k2) (reached_step H tr k o x k1 R PO PD E1) F' E2) as X. cbn [fst snd] in X. rewrite <- app_assoc in X. exact X. }
  pose proof (RA n [Write i m Arrives; Read j] tr _ R ltac:(repeat constructor) R2) as R1. cbn [fst snd] in R1. unfold seen in R1, R2. cbn [fst snd] in R1, R2. rewrite (firstn_all2 m L) in R1, R2.
  set (x := (Write i m Arrives, Sent (Z.of_nat (length m)) (Some (a, pj, m)) Arrives)) in *. set (y := (Read j, Got (Z.of_nat (length m)) (map Some m) (map Some (sockaddr a' pi)))) in *.
  assert (B : bound (tr ++ [x; y]) = bound tr) by (unfold bound; rewrite fold_left_app; reflexivity).
  assert (GJ : got j (tr ++ [x; y]) = got j tr ++ [(Z.of_nat (length m), map Some m, map Some (sockaddr a' pi))]) by (unfold got; rewrite flat_map_app; cbn [flat_map got1 x y]; rewrite Nat.eqb_refl; reflexivity).
  assert (IJb : (j =? i)%nat = false) by (apply Nat.eqb_neq; congruence).
  assert (DI : drained H i (tr ++ [x; y])).
  { unfold drained. replace (got i (tr ++ [x; y])) with (got i tr) by (unfold got; rewrite flat_map_app; cbn [flat_map got1 x y]; rewrite IJb, app_nil_r; reflexivity).
    replace [x; y] with ([x] ++ [y]) by reflexivity. rewrite app_assoc, arrivals_snoc, arrivals_snoc. fold (bound tr). cbn [arrival1 x y caller]. rewrite Pi, Hj, IJb, Bool.andb_false_r, !app_nil_r. exact Di. }
  destruct (proj2 (C100_port H tr n i pi R Pi)) as [Q1 Q2].
  assert (LS : last_src j (tr ++ [x; y]) = Some (map Some (sockaddr a' pi))) by (unfold last_src; rewrite GJ, rev_app_distr; reflexivity).
  destruct (C100_oneway H (tr ++ [x; y]) n2 (WriteBack j m' Arrives) j pj i pi a' R1 Logic.I eq_refl Logic.I eq_refl ltac:(rewrite B; exact Pj) ltac:(rewrite B; exact Hi) ltac:(rewrite B; exact Pi) DI
    (ex_intro _ a' (ex_intro _ pi (conj IA' (conj (conj Q1 Q2) (conj LS eq_refl))))) OA' ltac:(cbn [text_of]; lia)) as (n3 & n4 & R4 & _).
  exists n4. cbn [text_of] in R4. unfold seen in R4. cbn [fst snd] in R4. rewrite (firstn_all2 m' L') in R4. fold (sz m') in R4.
  change [Write i m Arrives; Read j; WriteBack j m' Arrives; Read i] with ([Write i m Arrives; Read j] ++ [WriteBack j m' Arrives; Read i]).
  assert (RR : forall l l2 k, run H k (l ++ l2) = do (xs, k) <- run H k l; do (ys, k) <- run H k l2; Ok (xs ++ ys, k)).
  { clear. induction l as [|o l IH]; intros l2 k; cbn [app run bind]; [destruct (run H k l2) as [[ys k']| | |]; reflexivity|]. destruct (step H k o) as [[z k1]| | |]; cbn [bind]; try reflexivity. rewrite IH.
    destruct (run H k1 l) as [[xs k2]| | |]; cbn [bind]; try reflexivity. destruct (run H k2 l2) as [[ys k3]| | |]; reflexivity. }
  rewrite RR, R2. cbn [bind]. rewrite R4. reflexivity.
Qed.
Print Assumptions C100_echo.

(** A text of at most 1499 characters comes as that text, with its NUL. *)
Theorem C100_text H tr n i pi j pj a text rest : reached H tr n -> port_of (bound tr) i = Some pi -> holder (bound tr) pj = Some j -> port_of (bound tr) j = Some pj -> drained H j tr ->
  dest_of H i tr = Some (a, pj) -> own H a = true -> ~ In 0 text -> (length text <= 1499)%nat ->
  exists n', run H n [WriteText i (text ++ 0 :: rest) Arrives; Read j] = Ok ([
    (WriteText i (text ++ 0 :: rest) Arrives, Sent (Z.of_nat (length text) + 1) (Some ((a, pj), text ++ [0])) Arrives);
    (Read j, Got (Z.of_nat (length text) + 1) (map Some (text ++ [0])) (map Some (sockaddr (srcof H a) pi)))], n').
Proof.
  intros R Pi Hj Pj D DA O N L. assert (U : upto_nul (text ++ 0 :: rest) = text ++ [0]).
  { clear - N. induction text as [|c t IH]; [reflexivity|]. cbn [app upto_nul]. destruct (Z.eqb_spec c 0) as [->|]; [exfalso; apply N; left; reflexivity|]. rewrite IH; [reflexivity|]. intros I. apply N. right. exact I. }
  assert (LU : length (text ++ [0]) = Datatypes.S (length text)) by (rewrite app_length; cbn [length]; lia).
  destruct (C100_oneway H tr n (WriteText i (text ++ 0 :: rest) Arrives) i pi j pj a R Logic.I eq_refl Logic.I eq_refl Pi Hj Pj D (eq_sym DA) O ltac:(cbn [text_of]; rewrite U, LU; lia)) as (n1 & n2 & R2 & _).
  exists n2. rewrite R2. cbn [text_of]. rewrite U. unfold seen. cbn [fst snd]. rewrite firstn_all2 by lia. rewrite LU, Nat2Z.inj_succ. reflexivity.
Qed.
Print Assumptions C100_text.

(** Defects.  A packet of 1501 to 65507 bytes is cut to 1500, though the sender is told that all was sent. *)
Theorem C100_cut_refuted H tr n i pi j pj a m : reached H tr n -> port_of (bound tr) i = Some pi -> holder (bound tr) pj = Some j -> port_of (bound tr) j = Some pj -> drained H j tr ->
  dest_of H i tr = Some (a, pj) -> own H a = true -> 1500 < Z.of_nat (length m) <= 65507 ->
  exists n', run H n [Write i m Arrives; Read j] = Ok ([
    (Write i m Arrives, Sent (Z.of_nat (length m)) (Some ((a, pj), m)) Arrives);
    (Read j, Got 1500 (map Some (firstn 1500 m)) (map Some (sockaddr (srcof H a) pi)))], n').
Proof.
  intros R Pi Hj Pj D DA O L. destruct (C100_oneway H tr n (Write i m Arrives) i pi j pj a R Logic.I eq_refl Logic.I eq_refl Pi Hj Pj D (eq_sym DA) O ltac:(cbn [text_of]; lia)) as (n1 & n2 & R2 & _).
  exists n2. rewrite R2. cbn [text_of]. unfold seen. cbn [fst snd]. assert (F : length (firstn 1500 m) = 1500%nat) by (apply firstn_length_le; lia). rewrite F. reflexivity.
Qed.
Print Assumptions C100_cut_refuted.
(** So a text of 1500 characters or more comes without its NUL. *)
Theorem C100_text_refuted H tr n i pi j pj a text : reached H tr n -> port_of (bound tr) i = Some pi -> holder (bound tr) pj = Some j -> port_of (bound tr) j = Some pj -> drained H j tr ->
  dest_of H i tr = Some (a, pj) -> own H a = true -> ~ In 0 text -> 1500 <= Z.of_nat (length text) < 65507 ->
  exists tr' n' data from, run H n [WriteText i (text ++ [0]) Arrives; Read j] = Ok (tr' ++ [(Read j, Got 1500 (map Some data) from)], n') /\ length data = 1500%nat /\ ~ In 0 data.
Proof.
  intros R Pi Hj Pj D DA O N L. assert (U : upto_nul (text ++ [0]) = text ++ [0]).
  { clear - N. induction text as [|c t IH]; [reflexivity|]. cbn [app upto_nul]. destruct (Z.eqb_spec c 0) as [->|]; [exfalso; apply N; left; reflexivity|]. rewrite IH; [reflexivity|]. intros I. apply N. right. exact I. }
  destruct (C100_oneway H tr n (WriteText i (text ++ [0]) Arrives) i pi j pj a R Logic.I eq_refl Logic.I eq_refl Pi Hj Pj D (eq_sym DA) O ltac:(cbn [text_of]; rewrite U, app_length; cbn [length]; lia)) as (n1 & n2 & R2 & _).
  assert (F : length (firstn 1500 text) = 1500%nat) by (apply firstn_length_le; lia).
  cbn [text_of] in R2. rewrite U in R2. unfold seen in R2. cbn [fst snd] in R2. rewrite firstn_app in R2. replace (1500 - length text)%nat with 0%nat in R2 by lia. rewrite firstn_O, app_nil_r, F in R2.
  eexists [_], n2, (firstn 1500 text), _. split; [exact R2|]. split; [exact F|]. intros I. apply N. rewrite <- (firstn_skipn 1500 text). apply in_or_app. left. exact I.
Qed.
Print Assumptions C100_text_refuted.
(** A port in use can be opened again: no error is raised, and from then on the new socket gets all packets for the port, the old one none,
    as long as the new one lives. *)
Theorem C100_stolen_refuted H tr n i p chosen : reached H tr n -> holder (bound tr) p = Some i -> 0 < p < 65536 ->
  exists k n', k <> i /\ step H n (Open p chosen true) = Ok (Opened k p, n') /\
  forall data from, let tr' := tr ++ [(Open p chosen true, Opened k p); (Outside p data from, Done)] in
    arrivals H k [] tr' = [(data, from)] /\ arrivals H i [] tr' = arrivals H i [] tr.
Proof.
  intros R Hd P. pose proof (reached_inv _ _ _ R) as V. assert (NE : made n <> i).
  { intros <-. apply holder_in in Hd. rewrite (v_bound _ _ _ V), keys_ports in Hd. pose proof (v_made _ _ _ V _ Hd). lia. }
  exists (made n). eexists. split; [exact NE|]. cbn [step negb]. replace (p =? 0) with false by lia. cbn [andb]. split; [reflexivity|]. intros data from.
  replace (tr ++ [(Open p chosen true, Opened (made n) p); (Outside p data from, Done)]) with ((tr ++ [(Open p chosen true, Opened (made n) p)]) ++ [(Outside p data from, Done)]) by (rewrite <- app_assoc; reflexivity).
  rewrite !arrivals_snoc. fold (bound tr). rewrite fold_left_app. cbn [fold_left bound1 arrival1 holder]. rewrite Z.eqb_refl, Nat.eqb_refl. replace (made n =? i)%nat with false by (symmetry; apply Nat.eqb_neq; exact NE). rewrite !app_nil_r.
  destruct (v_new _ _ _ V (made n) (Nat.le_refl _)) as (_ & W & _ & _). rewrite W. split; reflexivity.
Qed.
Print Assumptions C100_stolen_refuted.

(** A host with one name and one address. *)
Definition here : list Z := [127; 0; 0; 1].
Definition H0 : host := Host (fun name => match name with [c] => if c =? 104 then Some (2, here) else if c =? 54 then Some (10, repeat 0 16) else None | _ => None end) (fun a => match a with [127; 0; 0; 1] => true | _ => false end) (fun a => a).
(** A client on a port of the kernel's choice asks a server on port 5700, which answers; then a packet too long, one from outside, and reads that find nothing. *)
Example C100_ex : match run H0 net0 [Open 5700 0 true; Open 0 40000 true; Port 1; Write 1 [1] Arrives; Destination 1 5700 [104]; Destination 1 5701 [54]; Write 1 [65; 66] Arrives; Read 0; WriteBackText 0 [67; 0; 68] Arrives; ReadTimeout 1;
    Outside 5700 (repeat 7 1501) (sockaddr [10; 0; 0; 9] 99); Send 1 (map Some (sockaddr here 5700)) [69] Lost; NonBlocking 0; Read 0; Read 0; ReadTimeout 1; Destroy 0; Open 5700 0 false] with
  | Ok (tr, _) => map snd tr = [Opened 0 5700; Opened 1 40000; IsPort 40000; Sent (-1) None Arrives; Done; Done; Sent 2 (Some ((here, 5700), [65; 66])) Arrives;
      Got 2 [Some 65; Some 66] (map Some [2; 0; 156; 64; 127; 0; 0; 1; 0; 0; 0; 0; 0; 0; 0; 0]); Sent 2 (Some ((here, 40000), [67; 0])) Arrives; Got 2 [Some 67; Some 0] (map Some [2; 0; 22; 68; 127; 0; 0; 1; 0; 0; 0; 0; 0; 0; 0; 0]);
      Done; Sent 1 (Some ((here, 5700), [69])) Lost; Done; Got 1500 (repeat (Some 7) 1500) (map Some [2; 0; 0; 99; 10; 0; 0; 9; 0; 0; 0; 0; 0; 0; 0; 0]); Empty; Empty; Done; Threw]
  | _ => False
  end.
Proof. vm_compute. reflexivity. Qed.
(** The assumptions of C100_echo hold of a state reached. *)
Example C100_echo_ex : exists tr n, reached H0 tr n /\ port_of (bound tr) 1 = Some 40000 /\ port_of (bound tr) 0 = Some 5700 /\ holder (bound tr) 40000 = Some 1%nat /\ holder (bound tr) 5700 = Some 0%nat /\
  drained H0 1 tr /\ drained H0 0 tr /\ dest_of H0 1 tr = Some (here, 5700) /\ ip here /\ own H0 here = true.
Proof.
  destruct (run H0 net0 [Open 5700 0 true; Open 0 40000 true; Destination 1 5700 [104]]) as [[tr n]| | |] eqn:E; try (vm_compute in E; discriminate). exists tr, n.
  assert (I : ip here) by (split; [reflexivity|repeat constructor; lia]).
  split; [split; [split; [intros name ty a; cbn [H0 rv]|intros a A O; cbn [H0 srcof]; split; assumption]|exists [Open 5700 0 true; Open 0 40000 true; Destination 1 5700 [104]]; split; [repeat constructor; cbn; lia|exact E]]|].
  - intros X ->. destruct name as [|c [|? ?]]; try discriminate X. destruct (c =? 104); [injection X as <-; exact I|]. destruct (c =? 54); discriminate X.
  - vm_compute in E. injection E as <- <-. repeat split; try reflexivity. repeat constructor; lia.
Qed.
(** writeBack before anything is read. *)
Example C100_back_ex : run H0 net0 [Open 5700 0 true; WriteBack 0 [1] Arrives] = UB.
Proof. vm_compute. reflexivity. Qed.
