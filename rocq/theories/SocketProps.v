(** Properties C67-C70 (sockets). *)
From Verif Require Import Base BaseFacts UtilsModel UtilsSpec SqlModel SqlProofs ConfigModel ConfigSpec NumProofs SocketModel.
Local Open Scope Z_scope.

(** * Memory *)
Lemma store_ok m off b : (off + length b <= length m)%nat ->
  store m off b = Ok (firstn off m ++ map Some b ++ skipn (off + length b) m).
Proof. intros H. unfold store. destruct (Nat.leb_spec (off + length b) (length m)); [reflexivity|lia]. Qed.
Lemma store_inv m off b m' : store m off b = Ok m' ->
  (off + length b <= length m)%nat /\ m' = firstn off m ++ map Some b ++ skipn (off + length b) m.
Proof.
  unfold store. destruct (Nat.leb_spec (off + length b) (length m)); [|discriminate]. intros E. apply Ok_inj in E. auto.
Qed.
Lemma store_length m off b m' : store m off b = Ok m' -> length m' = length m.
Proof.
  intros E. apply store_inv in E. destruct E as [H ->]. rewrite !app_length, map_length, firstn_length, skipn_length. lia.
Qed.
Lemma eight (m : cells) : (8 <= length m)%nat -> exists c0 c1 c2 c3 c4 c5 c6 c7 r, m = c0 :: c1 :: c2 :: c3 :: c4 :: c5 :: c6 :: c7 :: r.
Proof.
  intros H. do 8 (destruct m as [|? m]; [cbn [length] in H; lia|]). repeat eexists.
Qed.
Lemma four (a : list Z) : length a = 4%nat -> exists x y z w, a = [x; y; z; w].
Proof. intros H. do 4 (destruct a as [|? a]; [discriminate|]). destruct a; [|discriminate]. repeat eexists. Qed.

(** * C68: names *)
(** The first eight bytes of a sockaddr_in. *)
Definition inet_bytes (ip : list Z) (port : Z) : list Z := [2; 0; port / 256; port mod 256] ++ ip.
Definition holds_inet (m : cells) (ip : list Z) (port : Z) : Prop := firstn 8 m = map Some (inet_bytes ip port).

Lemma resolve_some rv m host port ip : rv host = Some (2, ip) -> length ip = 4%nat -> (8 <= length m)%nat ->
  exists m', resolveAddress rv m host port = Ok (true, m') /\ length m' = length m /\ holds_inet m' ip port /\ skipn 8 m' = skipn 8 m.
Proof.
  intros E L H. destruct (eight m H) as (c0 & c1 & c2 & c3 & c4 & c5 & c6 & c7 & r & ->).
  destruct (four ip L) as (x & y & z & w & ->).
  unfold resolveAddress. rewrite E. cbn. eexists. split; [reflexivity|]. split; [reflexivity|]. split; reflexivity.
Qed.
Lemma resolve_inv rv m host port b m' : resolveAddress rv m host port = Ok (b, m') -> (8 <= length m)%nat ->
  (b = false /\ m' = m /\ (forall ip, rv host <> Some (2, ip))) \/
  (b = true /\ exists ip, rv host = Some (2, ip) /\ length ip = 4%nat /\ length m' = length m /\ holds_inet m' ip port).
Proof.
  intros E H. destruct (rv host) as [[type ip]|] eqn:R.
  - destruct (Z.eqb_spec type 2) as [->|N].
    + destruct (Nat.eqb_spec (length ip) 4) as [L|L].
      * right. destruct (resolve_some rv m host port ip R L H) as (m2 & E2 & L2 & I & _). rewrite E in E2. apply Ok_inj in E2.
        injection E2 as -> ->. split; [reflexivity|]. exists ip. auto.
      * exfalso. unfold resolveAddress in E. rewrite R in E. cbn [Z.eqb negb] in E.
        destruct (eight m H) as (c0 & c1 & c2 & c3 & c4 & c5 & c6 & c7 & r & ->). cbn in E.
        apply Nat.eqb_neq in L. rewrite L in E. discriminate.
    + left. unfold resolveAddress in E. rewrite R in E. unfold AF_INET in E. apply Z.eqb_neq in N. rewrite N in E. cbn [negb] in E.
      apply Ok_inj in E. injection E as -> ->. split; [reflexivity|]. split; [reflexivity|]. intros ip' F. injection F as -> _. discriminate.
  - left. unfold resolveAddress in E. rewrite R in E. apply Ok_inj in E. injection E as -> ->. split; [reflexivity|]. split; [reflexivity|]. intros ip F. discriminate.
Qed.
Lemma target_holds m ip port : holds_inet m ip port -> length ip = 4%nat -> 0 <= port < 65536 ->
  inet_target m = Ok (if port =? 0 then None else Some (ip, port)).
Proof.
  intros H L P. destruct (four ip L) as (x & y & z & w & ->). unfold holds_inet, inet_bytes in H. cbn [map app] in H.
  do 8 (destruct m as [|? m]; [discriminate|]). cbn [firstn] in H. injection H as -> -> -> -> -> -> -> ->.
  unfold inet_target, byte. cbn [nth_error bind]. change (2 + 256 * 0 =? AF_INET) with true. cbn [orb].
  rewrite <- (Z.div_mod port 256) by lia. reflexivity.
Qed.

(** A name that resolves to an IPv4 address gives that address with the port, in network order;
    otherwise the call fails and the address is as before. *)
Theorem C68_resolve : forall rv address host port, (8 <= length address)%nat -> 0 <= port < 65536 ->
  (forall ip, rv host = Some (2, ip) -> length ip = 4%nat ->
     exists a, resolveAddress rv address host port = Ok (true, a) /\ holds_inet a ip port /\ skipn 8 a = skipn 8 address /\
       inet_target a = Ok (if port =? 0 then None else Some (ip, port))) /\
  ((forall ip, rv host <> Some (2, ip)) -> resolveAddress rv address host port = Ok (false, address)).
Proof.
  intros rv address host port H P. split.
  - intros ip E L. destruct (resolve_some rv address host port ip E L H) as (m & E2 & _ & I & K). exists m. auto using target_holds.
  - intros N. unfold resolveAddress. destruct (rv host) as [[type ip]|]; [|reflexivity].
    destruct (Z.eqb_spec type 2) as [->|D]; [exfalso; apply (N ip); reflexivity|]. unfold AF_INET. apply Z.eqb_neq in D. rewrite D. reflexivity.
Qed.
Print Assumptions C68_resolve.

Lemma colon_split host rest : ~ In 58 host -> at_colon (host ++ 58 :: rest) = Some (host, rest).
Proof.
  induction host as [|c t IH]; intros N; [reflexivity|]. cbn [app at_colon]. destruct (Z.eqb_spec c 58) as [->|D]; [destruct N; left; reflexivity|].
  rewrite IH; [reflexivity|]. intros I. apply N. right. exact I.
Qed.
Lemma colon_none s : ~ In 58 s -> at_colon s = None.
Proof.
  induction s as [|c t IH]; intros N; [reflexivity|]. cbn [at_colon]. destruct (Z.eqb_spec c 58) as [->|D]; [destruct N; left; reflexivity|].
  rewrite IH; [reflexivity|]. intros I. apply N. right. exact I.
Qed.
Lemma strtol10_spec ws sign ds s rest : Forall (fun c => isspace c = true) ws -> is_sign sign ->
  digit_string 10 ds s -> ds <> [] -> stops 10 rest ->
  strtol10 (ws ++ sign ++ s ++ rest) = saturate (sign_of sign * positional 10 ds).
Proof.
  intros W G D N R. destruct ds as [|d ds]; [contradiction|]. inversion D as [|? c ? s' [L C] D']; subst.
  assert (V : digits_val 10 ((c :: s') ++ rest) 0 = positional 10 (d :: ds)).
  { rewrite (digits_val_spec 10 ltac:(lia) (d :: ds) (c :: s') rest 0 D R). lia. }
  destruct (digit_nospace 10 d c ltac:(lia) L C) as (S1 & S2 & S3 & S4).
  unfold strtol10. rewrite skip_space_app by exact W. rewrite saturate_clamp. rewrite <- V. destruct G as [->|[->| ->]].
  - cbn [app skip_space]. rewrite S1. replace (c =? 45) with false by lia. replace (c =? 43) with false by lia.
    change (sign_of []) with 1. rewrite Z.mul_1_l. reflexivity.
  - cbn [app]. change (skip_space (43 :: c :: s' ++ rest)) with (43 :: c :: s' ++ rest). cbv iota.
    change (43 =? 45) with false. change (43 =? 43) with true. cbv iota. change (sign_of [43]) with 1. rewrite Z.mul_1_l. reflexivity.
  - cbn [app]. change (skip_space (45 :: c :: s' ++ rest)) with (45 :: c :: s' ++ rest). cbv iota.
    change (45 =? 45) with true. cbv iota. change (sign_of [45]) with (-1).
    replace (-1 * digits_val 10 (c :: s' ++ rest) 0) with (- digits_val 10 (c :: s' ++ rest) 0) by lia. reflexivity.
Qed.
Lemma u32_u16 z : u32 z mod 2 ^ 16 = z mod 2 ^ 16.
Proof. unfold u32. change (2 ^ 32) with (2 ^ 16 * 2 ^ 16). rewrite Z.rem_mul_r by lia. rewrite Z.add_mod by lia.
  rewrite (Z.mul_comm (2 ^ 16)), Z.mod_mul by lia. rewrite Z.add_0_r, Z.mod_mod by lia. apply Z.mod_mod. lia. Qed.

(** "host:number": the host is what stands before the first colon, the port the decimal number
    behind it modulo 65536; what follows the number is ignored. *)
Theorem C68_host_port : forall rv address host ws sign ds digits rest,
  ~ In 58 host -> no_nul host -> Forall (fun c => isspace c = true) ws -> is_sign sign ->
  digit_string 10 ds digits -> ds <> [] -> stops 10 rest -> no_nul rest ->
  resolveHostAndPort rv address (host ++ 58 :: ws ++ sign ++ digits ++ rest) =
    do (b, a) <- resolveAddress rv address host (saturate (sign_of sign * positional 10 ds) mod 65536); Ok (b, a, false).
Proof.
  intros rv address host ws sign ds digits rest C N W G D E R Z0. unfold resolveHostAndPort.
  rewrite c_str_id.
  - rewrite colon_split by exact C. rewrite u32_u16. rewrite strtol10_spec with (ds := ds) by assumption. reflexivity.
  - intros I. apply in_app_or in I. destruct I as [I|[I|I]]; [exact (N I)|discriminate|].
    apply in_app_or in I. destruct I as [I|I]; [rewrite Forall_forall in W; specialize (W 0 I); discriminate|].
    apply in_app_or in I. destruct I as [I|I]; [destruct G as [->|[->| ->]]; cbn in I; intuition discriminate|].
    apply in_app_or in I. destruct I as [I|I]; [exact (digits_no_nul 10 ds digits D I)|exact (Z0 I)].
Qed.
Print Assumptions C68_host_port.

(** So the text of a host and a port number leads to that host and port. *)
Theorem C68_roundtrip : forall rv address host port ip, (8 <= length address)%nat -> 0 <= port < 65536 ->
  ~ In 58 host -> no_nul host -> rv host = Some (2, ip) -> length ip = 4%nat ->
  exists a, resolveHostAndPort rv address (host ++ 58 :: sprintf_ld port) = Ok (true, a, false) /\ holds_inet a ip port.
Proof.
  intros rv address host port ip H P C N E L. unfold sprintf_ld. replace (port <? 0) with false by lia.
  destruct (dec_digits_spec 20 port) as (d & ds & D & V & _); [change (10 ^ Z.of_nat 20) with 100000000000000000000; lia|lia|].
  pose proof (C68_host_port rv address host [] [] (d :: ds) (dec_digits 20 port) [] C N) as F.
  rewrite !app_nil_r in F. cbn [app] in F. rewrite F; clear F.
  - rewrite V. change (sign_of []) with 1. unfold saturate. replace (1 * port <? - 2 ^ 63) with false by lia. replace (1 * port <? 2 ^ 63) with true by lia.
    rewrite Z.mul_1_l, Z.mod_small by lia.
    destruct (resolve_some rv address host port ip E L H) as (m & E2 & _ & I & _). rewrite E2. exists m. auto.
  - constructor.
  - left; reflexivity.
  - exact D.
  - discriminate.
  - exact I.
  - intros [].
Qed.
Print Assumptions C68_roundtrip.

(** Without a colon the call fails, leaves the address alone and leaks its copy of the text. *)
Theorem C68_missing_port : forall rv address text, ~ In 58 text -> no_nul text ->
  resolveHostAndPort rv address text = Ok (false, address, true).
Proof. intros rv address text C N. unfold resolveHostAndPort. rewrite c_str_id by exact N. rewrite colon_none by exact C. reflexivity. Qed.
Print Assumptions C68_missing_port.

(** Defect: text that is no number counts as port 0, and larger numbers wrap around. *)
Theorem C68_bad_port_refuted : forall rv address host ip, (8 <= length address)%nat -> ~ In 58 host -> no_nul host ->
  rv host = Some (2, ip) -> length ip = 4%nat ->
  (exists a, resolveHostAndPort rv address (host ++ lit ":http") = Ok (true, a, false) /\ holds_inet a ip 0) /\
  (exists a, resolveHostAndPort rv address (host ++ lit ":65616") = Ok (true, a, false) /\ holds_inet a ip 80) /\
  (exists a, resolveHostAndPort rv address (host ++ lit ":-1") = Ok (true, a, false) /\ holds_inet a ip 65535).
Proof.
  intros rv address host ip H C N E L.
  assert (K : forall t port, no_nul t -> strtol10 t mod 2 ^ 16 = port -> exists a, resolveHostAndPort rv address (host ++ 58 :: t) = Ok (true, a, false) /\ holds_inet a ip port).
  { intros t port T V. unfold resolveHostAndPort. rewrite c_str_id.
    - rewrite colon_split by exact C. rewrite u32_u16, V. destruct (resolve_some rv address host port ip E L H) as (m & E2 & _ & I & _). rewrite E2. exists m. auto.
    - intros I. apply in_app_or in I. destruct I as [I|[I|I]]; [exact (N I)|discriminate|exact (T I)]. }
  split; [|split].
  - apply (K (lit "http") 0); [intros I; vm_compute in I; intuition discriminate|vm_compute; reflexivity].
  - apply (K (lit "65616") 80); [intros I; vm_compute in I; intuition discriminate|vm_compute; reflexivity].
  - apply (K (lit "-1") 65535); [intros I; vm_compute in I; intuition discriminate|vm_compute; reflexivity].
Qed.
Print Assumptions C68_bad_port_refuted.

Definition local_resolver : resolver := fun h => if weqb h (lit "localhost") then Some (2, [127; 0; 0; 1]) else None.
Example C68_example :
  resolveHostAndPort local_resolver (repeat (Some 0) 16) (lit "localhost:5061") =
    Ok (true, map Some ([2; 0; 19; 197; 127; 0; 0; 1] ++ repeat 0 8), false) /\
  resolveHostAndPort local_resolver (repeat (Some 7) 16) (lit "nohost:5061") = Ok (false, repeat (Some 7) 16, false).
Proof. split; vm_compute; reflexivity. Qed.

(** * C67: UDP sockets *)
(** The address recvfrom reports. *)
Definition inet_from (ip : list Z) (port : Z) : list Z := inet_bytes ip port ++ repeat 0 8.
Definition arrival_of (o : op) : option arrival :=
  match o with Read x => Some x | ReadTimeout (SelReady x) => Some x | _ => None end.
(** No packet arrives in this call. *)
Definition quiet (o : op) : Prop := forall data from, arrival_of o <> Some (Packet data from).
(** This call sets no new destination. *)
Definition keeps_dest (rv : resolver) (o : op) : Prop :=
  match o with Destination _ host => forall ip, rv host <> Some (2, ip) | _ => True end.
Definition shape (s : sock) : Prop := length (mDestination s) = 256%nat /\ length (mSource s) = 256%nat.

Lemma read_inv A s x (e : effect A) s' : read_ s x = Ok (e, s') -> mDestination s' = mDestination s /\
  (mSource s' = mSource s /\ (forall data from, x <> Packet data from) \/
   exists data from, x = Packet data from /\ store (mSource s) 0 from = Ok (mSource s')).
Proof.
  destruct x as [data from| |]; unfold read_.
  - intros E. apply bind_ok in E. destruct E as (buf & E1 & E). apply bind_ok in E. destruct E as (src & E2 & E). apply Ok_inj in E. injection E as <- <-.
    split; [reflexivity|]. right. exists data, from. auto.
  - intros E. apply Ok_inj in E. injection E as <- <-. split; [reflexivity|]. left. split; [reflexivity|]. intros; discriminate.
  - intros E. apply Ok_inj in E. injection E as <- <-. split; [reflexivity|]. left. split; [reflexivity|]. intros; discriminate.
Qed.
(** What a step does to the two addresses. *)
Lemma step_inv rv s o e s' : step rv s o = Ok (e, s') -> shape s ->
  shape s' /\
  (keeps_dest rv o -> mDestination s' = mDestination s) /\
  (forall port host ip, o = Destination port host -> rv host = Some (2, ip) -> length ip = 4%nat /\ holds_inet (mDestination s') ip port) /\
  (quiet o -> mSource s' = mSource s) /\
  (forall data from, arrival_of o = Some (Packet data from) -> store (mSource s) 0 from = Ok (mSource s')).
Proof.
  intros E [H1 H2].
  assert (R : forall x (e : effect (list Z * Z)) s', read_ s x = Ok (e, s') -> arrival_of o = Some x ->
    shape s' /\ (keeps_dest rv o -> mDestination s' = mDestination s) /\
    (quiet o -> mSource s' = mSource s) /\
    (forall data from, arrival_of o = Some (Packet data from) -> store (mSource s) 0 from = Ok (mSource s'))).
  { intros x e0 s0 E0 A. destruct (read_inv _ s x e0 s0 E0) as [D [[S N]|(data & from & -> & S)]].
    - split; [unfold shape; rewrite D, S; auto|]. split; [auto|]. split; [auto|]. intros data from K. rewrite A in K. injection K as ->. exfalso. exact (N _ _ eq_refl).
    - split; [unfold shape; rewrite D, (store_length _ _ _ _ S); auto|]. split; [auto|]. split.
      + intros Q. exfalso. exact (Q _ _ A).
      + intros data' from' K. rewrite A in K. injection K as <- <-. exact S. }
  destruct o; cbn [step] in E.
  - apply bind_ok in E. destruct E as ([b d] & E1 & E). apply Ok_inj in E. injection E as <- <-. cbn [mDestination mSource].
    destruct (resolve_inv rv (mDestination s) host port b d E1 ltac:(lia)) as [(-> & -> & N)|(-> & ip & I & L & L2 & K)].
    + split; [split; assumption|]. split; [auto|]. split; [|split; [auto|intros; discriminate]].
      intros port' host' ip' F G. injection F as <- <-. exfalso. exact (N _ G).
    + split; [split; [cbn [mDestination]; lia|assumption]|]. split; [|split; [|split; [auto|intros; discriminate]]].
      * intros N. exfalso. exact (N ip I).
      * intros port' host' ip' F G. injection F as <- <-. rewrite I in G. injection G as <-. auto.
  - apply bind_ok in E. destruct E as (e1 & E1 & E). apply Ok_inj in E. injection E as <- <-.
    split; [split; assumption|]. split; [auto|]. split; [intros; discriminate|]. split; [auto|intros; discriminate].
  - apply bind_ok in E. destruct E as (e1 & E1 & E). apply Ok_inj in E. injection E as <- <-.
    split; [split; assumption|]. split; [auto|]. split; [intros; discriminate|]. split; [auto|intros; discriminate].
  - apply bind_ok in E. destruct E as (e1 & E1 & E). apply Ok_inj in E. injection E as <- <-.
    split; [split; assumption|]. split; [auto|]. split; [intros; discriminate|]. split; [auto|intros; discriminate].
  - apply bind_ok in E. destruct E as (e1 & E1 & E). apply Ok_inj in E. injection E as <- <-.
    split; [split; assumption|]. split; [auto|]. split; [intros; discriminate|]. split; [auto|intros; discriminate].
  - destruct (R x e s' E eq_refl) as (R1 & R2 & R3 & R4). split; [exact R1|]. split; [exact R2|]. split; [intros; discriminate|]. auto.
  - destruct r as [| |x]; cbn [read_timeout] in E.
    + apply Ok_inj in E. injection E as <- <-. split; [split; assumption|]. split; [auto|]. split; [intros; discriminate|]. split; [auto|intros; discriminate].
    + apply Ok_inj in E. injection E as <- <-. split; [split; assumption|]. split; [auto|]. split; [intros; discriminate|]. split; [auto|intros; discriminate].
    + destruct (R x e s' E eq_refl) as (R1 & R2 & R3 & R4). split; [exact R1|]. split; [exact R2|]. split; [intros; discriminate|]. auto.
Qed.
Lemma run_app rv : forall l1 l2 s es s', run rv s (l1 ++ l2) = Ok (es, s') ->
  exists es1 es2 s1, run rv s l1 = Ok (es1, s1) /\ run rv s1 l2 = Ok (es2, s') /\ es = es1 ++ es2.
Proof.
  induction l1 as [|o l1 IH]; intros l2 s es s' E; [exists [], es, s; auto|].
  cbn [app run] in *. apply bind_ok in E. destruct E as ([e s1] & E1 & E). apply bind_ok in E. destruct E as ([es2 s2] & E2 & E).
  apply Ok_inj in E. injection E as <- <-. destruct (IH l2 s1 es2 s2 E2) as (a & b & s3 & A & B & ->).
  exists (e :: a), b, s3. rewrite E1. cbn [bind]. rewrite A. auto.
Qed.
Lemma run_inv rv : forall l s es s', run rv s l = Ok (es, s') -> shape s ->
  shape s' /\ (Forall (keeps_dest rv) l -> mDestination s' = mDestination s) /\ (Forall quiet l -> mSource s' = mSource s).
Proof.
  induction l as [|o l IH]; intros s es s' E H; cbn [run] in E.
  - apply Ok_inj in E. injection E as <- <-. auto.
  - apply bind_ok in E. destruct E as ([e s1] & E1 & E). apply bind_ok in E. destruct E as ([es2 s2] & E2 & E).
    apply Ok_inj in E. injection E as <- <-. destruct (step_inv rv s o e s1 E1 H) as (H1 & D & _ & Q & _).
    destruct (IH s1 es2 s2 E2 H1) as (H2 & D2 & Q2). split; [exact H2|]. split.
    + intros F. inversion F; subst. rewrite D2, D by assumption. reflexivity.
    + intros F. inversion F; subst. rewrite Q2, Q by assumption. reflexivity.
Qed.
Lemma shape0 buf : shape (sock0 buf).
Proof. split; apply repeat_length. Qed.

(** What the network is given: the packet, unless it is too long or the network refuses it. *)
Definition sent (ip : list Z) (port : Z) (message : list Z) (up : bool) : effect (list Z * Z) :=
  if up && (Z.of_nat (length message) <=? 65507) then Sends (Some ((ip, port), message)) (Z.of_nat (length message)) else Sends None (-1).

(** write goes to the destination set last; names that do not resolve do not count. *)
Theorem C67_write : forall rv buf l1 port host l2 es s ip message up,
  run rv (sock0 buf) (l1 ++ Destination port host :: l2) = Ok (es, s) ->
  rv host = Some (2, ip) -> 0 < port < 65536 -> Forall (keeps_dest rv) l2 ->
  step rv s (Write message up) = Ok (sent ip port message up, s).
Proof.
  intros rv buf l1 port host l2 es s ip message up E R P F.
  destruct (run_app rv l1 _ _ _ _ E) as (es1 & es2 & s1 & A & B & ->).
  destruct (run_inv rv l1 _ _ _ A (shape0 buf)) as (H1 & _ & _).
  cbn [run] in B. apply bind_ok in B. destruct B as ([e s2] & B1 & B). apply bind_ok in B. destruct B as ([es3 s3] & B2 & B).
  apply Ok_inj in B. injection B as <- <-. destruct (step_inv rv s1 _ e s2 B1 H1) as (H2 & _ & D & _ & _).
  destruct (D port host ip eq_refl R) as [L K]. destruct (run_inv rv l2 _ _ _ B2 H2) as (H3 & D3 & _).
  specialize (D3 F). cbn [step]. unfold write_. rewrite D3. rewrite (target_holds _ ip port K L ltac:(lia)). replace (port =? 0) with false by lia.
  reflexivity.
Qed.
Print Assumptions C67_write.

(** As long as no destination was set, write sends nothing and returns -1. *)
Theorem C67_no_destination : forall rv buf l es s message up,
  run rv (sock0 buf) l = Ok (es, s) -> Forall (keeps_dest rv) l ->
  step rv s (Write message up) = Ok (Sends None (-1), s).
Proof.
  intros rv buf l es s message up E F. destruct (run_inv rv l _ _ _ E (shape0 buf)) as (H & D & _). specialize (D F).
  cbn [step]. unfold write_. rewrite D. reflexivity.
Qed.
Print Assumptions C67_no_destination.

(** writeBack goes to the sender of the last packet received. *)
Theorem C67_write_back : forall rv buf l1 o l2 es s data ip port message up,
  run rv (sock0 buf) (l1 ++ o :: l2) = Ok (es, s) ->
  arrival_of o = Some (Packet data (inet_from ip port)) -> length ip = 4%nat -> 0 < port < 65536 -> Forall quiet l2 ->
  step rv s (WriteBack message up) = Ok (sent ip port message up, s).
Proof.
  intros rv buf l1 o l2 es s data ip port message up E R L P F.
  destruct (run_app rv l1 _ _ _ _ E) as (es1 & es2 & s1 & A & B & ->).
  destruct (run_inv rv l1 _ _ _ A (shape0 buf)) as (H1 & _ & _).
  cbn [run] in B. apply bind_ok in B. destruct B as ([e s2] & B1 & B). apply bind_ok in B. destruct B as ([es3 s3] & B2 & B).
  apply Ok_inj in B. injection B as <- <-. destruct (step_inv rv s1 _ e s2 B1 H1) as (H2 & _ & _ & _ & D).
  specialize (D _ _ R). apply store_inv in D. destruct D as [_ D].
  destruct (run_inv rv l2 _ _ _ B2 H2) as (H3 & _ & D3). specialize (D3 F).
  assert (K : holds_inet (mSource s3) ip port).
  { rewrite D3, D. destruct (four ip L) as (x & y & z & w & ->). reflexivity. }
  cbn [step]. unfold writeBack_. rewrite (target_holds _ ip port K L ltac:(lia)). replace (port =? 0) with false by lia. reflexivity.
Qed.
Print Assumptions C67_write_back.

(** Defect: before the first packet writeBack uses an address that was never written. *)
Theorem C67_write_back_first_refuted : forall rv buf l es s message up,
  run rv (sock0 buf) l = Ok (es, s) -> Forall quiet l -> step rv s (WriteBack message up) = UB.
Proof.
  intros rv buf l es s message up E F. destruct (run_inv rv l _ _ _ E (shape0 buf)) as (H & _ & D). specialize (D F).
  cbn [step]. unfold writeBack_. rewrite D. reflexivity.
Qed.
Print Assumptions C67_write_back_first_refuted.

(** A text is sent with its NUL, to the same places as other packets. *)
Theorem C67_text : forall rv s text junk up, no_nul text ->
  step rv s (WriteText (text ++ 0 :: junk) up) = step rv s (Write (text ++ [0]) up) /\
  step rv s (WriteBackText (text ++ 0 :: junk) up) = step rv s (WriteBack (text ++ [0]) up).
Proof.
  intros rv s text junk up N. cbn [step]. unfold message_of.
  replace (c_str (text ++ 0 :: junk)) with text; [split; reflexivity|].
  symmetry. induction text as [|c t IH]; [reflexivity|]. cbn [app c_str].
  destruct (Z.eqb_spec c 0) as [->|D]; [destruct N; left; reflexivity|]. rewrite IH; [reflexivity|]. intros I. apply N. right. exact I.
Qed.
Print Assumptions C67_text.

(** read: the first 1500 bytes of the packet, their number, and nothing else of the buffer. *)
Theorem C67_read : forall A s data from, (length from <= length (mSource s))%nat ->
  let n := Nat.min 1500 (length data) in
  ((n <= length (userbuf s))%nat -> exists s', read_ (A := A) s (Packet data from) = Ok (Returns (Z.of_nat n), s') /\
     firstn n (userbuf s') = map Some (firstn n data) /\ skipn n (userbuf s') = skipn n (userbuf s) /\ length (userbuf s') = length (userbuf s)) /\
  ((length (userbuf s) < n)%nat -> read_ (A := A) s (Packet data from) = UB).
Proof.
  intros A s data from H n.
  assert (K : firstn (Z.to_nat MAX_UDP_LENGTH) data = firstn n data).
  { change (Z.to_nat MAX_UDP_LENGTH) with 1500%nat. unfold n. destruct (Nat.le_gt_cases (length data) 1500) as [G|G].
    - rewrite Nat.min_r by exact G. rewrite !firstn_all2; [reflexivity|lia|lia].
    - rewrite Nat.min_l by lia. reflexivity. }
  assert (L : length (firstn n data) = n) by (rewrite firstn_length; unfold n; lia).
  unfold read_. rewrite K. split; intros G.
  - rewrite store_ok by (rewrite L; lia). cbn [bind]. rewrite store_ok by lia. cbn [bind]. rewrite L. eexists. split; [reflexivity|].
    cbn [userbuf Nat.add firstn app]. split; [|split].
    + rewrite firstn_app, map_length, L, Nat.sub_diag. cbn [firstn]. rewrite app_nil_r. apply firstn_all2. rewrite map_length, L. lia.
    + rewrite skipn_app, map_length, L, Nat.sub_diag. cbn [skipn]. rewrite skipn_all2; [reflexivity|]. rewrite map_length, L. lia.
    + rewrite app_length, map_length, L, skipn_length. lia.
  - unfold store at 1. rewrite L. destruct (Nat.leb_spec (0 + n) (length (userbuf s))); [lia|]. reflexivity.
Qed.
Print Assumptions C67_read.

(** -1 means that nothing arrived, an exception that select or recvfrom failed. *)
Theorem C67_read_result : forall rv s r e s', step rv s (ReadTimeout r) = Ok (e, s') ->
  (e = Returns (-1) <-> r = SelTimeout \/ r = SelReady Again) /\
  (e = Throws <-> r = SelError \/ r = SelReady Failure) /\
  (e = Returns (-1) \/ e = Throws -> s' = s).
Proof.
  intros rv s r e s' E. cbn [step] in E. destruct r as [| |x]; cbn [read_timeout] in E.
  - apply Ok_inj in E. injection E as <- <-. repeat split; intros; intuition discriminate.
  - apply Ok_inj in E. injection E as <- <-. repeat split; intros; intuition discriminate.
  - destruct x as [data from| |]; cbn [read_] in E.
    + apply bind_ok in E. destruct E as (b1 & _ & E). apply bind_ok in E. destruct E as (b2 & _ & E). apply Ok_inj in E. injection E as <- <-.
      assert (N : forall n, Returns (A := list Z * Z) (Z.of_nat n) <> Returns (-1)) by (intros n F; injection F; lia).
      split; [|split].
      * split; [intros F; exfalso; exact (N _ F)|intros [F|F]; discriminate].
      * split; [discriminate|intros [F|F]; discriminate].
      * intros [F|F]; [exfalso; exact (N _ F)|discriminate].
    + apply Ok_inj in E. injection E as <- <-. repeat split; intros; intuition discriminate.
    + apply Ok_inj in E. injection E as <- <-. repeat split; intros; intuition discriminate.
Qed.
Print Assumptions C67_read_result.

(** The time given to select is valid and exactly the milliseconds asked for. *)
Theorem C67_timeout : forall ms, 0 <= ms < 2 ^ 32 ->
  let (sec, usec) := select_time ms in 0 <= sec /\ 0 <= usec < 1000000 /\ sec * 1000000 + usec = ms * 1000.
Proof. intros ms H. unfold select_time. lia. Qed.
Print Assumptions C67_timeout.

(** A text of up to 1499 characters arrives as a C string. *)
Theorem C67_text_arrives : forall A s text from, (1500 <= length (userbuf s))%nat -> (length from <= length (mSource s))%nat -> no_nul text ->
  exists s', read_ (A := A) s (Packet (text ++ [0]) from) = Ok (Returns (Z.of_nat (Nat.min 1500 (length text + 1))), s') /\
  ((length text <= 1499)%nat -> firstn (length text + 1) (userbuf s') = map Some (text ++ [0])) /\
  ((1500 <= length text)%nat -> ~ In (Some 0) (firstn 1500 (userbuf s'))).
Proof.
  intros A s text from H F N. destruct (C67_read A s (text ++ [0]) from F) as [R _]. cbv zeta in R. rewrite app_length in R. cbn [length] in R.
  destruct (R ltac:(lia)) as (s' & E & P & _ & _). exists s'. split; [exact E|]. split; intros G.
  - rewrite Nat.min_r in P by lia. rewrite P. f_equal. apply firstn_all2. rewrite app_length. cbn [length]. lia.
  - rewrite Nat.min_l in P by lia. rewrite P. intros I. apply in_map_iff in I. destruct I as (x & X & I). injection X as ->.
    rewrite firstn_app in I. replace (1500 - length text)%nat with 0%nat in I by lia. cbn [firstn] in I. rewrite app_nil_r in I.
    apply N. rewrite <- (firstn_skipn 1500 text). apply in_or_app. left. exact I.
Qed.
Print Assumptions C67_text_arrives.

Definition ping : list op :=
  [Destination 5934 (lit "localhost"); Destination 1 (lit "nohost"); Write [1; 2] true;
   Read (Packet [7; 8; 9] (inet_from [10; 0; 0; 1] 5061)); WriteBackText (lit "ok" ++ [0; 5]) true; Read Again].
Example C67_example : match run local_resolver (sock0 (repeat None 4)) ping with
  | Ok (es, s) => es = [Returns 0; Returns 0; Sends (Some (([127; 0; 0; 1], 5934), [1; 2])) 2; Returns 3;
       Sends (Some (([10; 0; 0; 1], 5061), lit "ok" ++ [0])) 3; Returns (-1)] /\ userbuf s = [Some 7; Some 8; Some 9; None]
  | _ => False end.
Proof. vm_compute. split; reflexivity. Qed.

(** * C69: Unix sockets *)
(** The address of a socket bound to a path, as recvfrom reports it. *)
Definition unix_from (path : list Z) : list Z := [1; 0] ++ path ++ [0].
Definition holds_unix (m : cells) (path : list Z) : Prop :=
  firstn (length path + 3) m = map Some (unix_from path).

Lemma path_at_spec : forall path n m i, no_nul path -> (length path <= n)%nat ->
  (forall k c, nth_error path k = Some c -> nth_error m (i + k) = Some (Some c)) ->
  ((length path < n)%nat -> nth_error m (i + length path) = Some (Some 0)) ->
  path_at n m i = Ok path.
Proof.
  induction path as [|c t IH]; intros n m i N L H Z.
  - destruct n as [|n]; [reflexivity|]. cbn [path_at]. unfold byte. specialize (Z ltac:(cbn [length]; lia)). cbn [length] in Z. rewrite Nat.add_0_r in Z. rewrite Z. reflexivity.
  - destruct n as [|n]; [cbn [length] in L; lia|]. cbn [path_at]. unfold byte. specialize (H 0%nat c eq_refl) as H0. rewrite Nat.add_0_r in H0. rewrite H0. cbn [bind].
    destruct (Z.eqb_spec c 0) as [->|D]; [destruct N; left; reflexivity|].
    rewrite (IH n m (S i)).
    + reflexivity.
    + intros I. apply N. right. exact I.
    + cbn [length] in L. lia.
    + intros k x K. specialize (H (S k) x K). rewrite Nat.add_succ_r in H. exact H.
    + intros G. cbn [length] in *. specialize (Z ltac:(lia)). rewrite Nat.add_succ_r in Z. exact Z.
Qed.
Lemma holds_nth m path : holds_unix m path -> forall k c, nth_error (unix_from path) k = Some c -> nth_error m k = Some (Some c).
Proof.
  intros H k c K. assert (L : (k < length path + 3)%nat).
  { assert (K0 : nth_error (unix_from path) k <> None) by congruence. apply nth_error_Some in K0. unfold unix_from in K0. rewrite !app_length in K0. cbn [length] in K0. lia. }
  rewrite <- (firstn_skipn (length path + 3) m). rewrite H. rewrite nth_error_app1.
  - apply map_nth_error. exact K.
  - rewrite map_length. unfold unix_from. rewrite !app_length. cbn [length]. lia.
Qed.
Lemma unix_target_holds m path : holds_unix m path -> no_nul path -> (length path <= 108)%nat ->
  unix_target m = Ok (match path with [] => None | _ => Some path end).
Proof.
  intros H N L. pose proof (holds_nth m path H) as K. unfold unix_target, byte.
  rewrite (K 0%nat 1 eq_refl), (K 1%nat 0 eq_refl). cbn [bind]. change (1 + 256 * 0 =? AF_UNIX) with true. cbn iota.
  rewrite (path_at_spec path 108 m 2 N L); [reflexivity| |].
  - intros k c E. apply K. unfold unix_from. cbn [app Nat.add nth_error]. rewrite nth_error_app1; [exact E|].
    apply nth_error_Some. congruence.
  - intros _. apply K. unfold unix_from. cbn [app Nat.add nth_error]. rewrite nth_error_app2 by lia. rewrite Nat.sub_diag. reflexivity.
Qed.
Lemma c_str_text text junk : no_nul text -> c_str (text ++ 0 :: junk) = text.
Proof.
  induction text as [|c t IH]; intros N; [reflexivity|]. cbn [app c_str].
  destruct (Z.eqb_spec c 0) as [->|D]; [destruct N; left; reflexivity|]. rewrite IH; [reflexivity|]. intros I. apply N. right. exact I.
Qed.

(** open binds exactly the path given, if it has 1 to 107 characters; longer paths overrun the stack. *)
Theorem C69_open : forall path junk, no_nul path ->
  (path <> [] -> (length path <= 107)%nat -> udd_open (path ++ 0 :: junk) = Ok (Some path)) /\
  ((107 < length path)%nat -> udd_open (path ++ 0 :: junk) = UB).
Proof.
  intros path junk N. unfold udd_open. rewrite (c_str_text path junk N). rewrite (store_ok (repeat (Some 0) 110) 0 [AF_UNIX; 0]) by (rewrite repeat_length; cbn [length]; lia).
  cbn [bind]. split.
  - intros P L. rewrite store_ok.
    2:{ cbn [firstn app map length Nat.add]. rewrite skipn_length, repeat_length, app_length. cbn [length]. lia. }
    cbn [bind]. rewrite (unix_target_holds _ path); [destruct path; [contradiction|reflexivity]| |exact N|lia].
    unfold holds_unix, unix_from. change (firstn 2 (firstn 0 (repeat (Some 0) 110) ++ map Some [AF_UNIX; 0] ++ skipn (0 + length [AF_UNIX; 0]) (repeat (Some 0) 110))) with [Some 1; Some 0].
    replace (length path + 3)%nat with (2 + (length path + 1))%nat by lia. cbn [Nat.add app firstn map]. f_equal. f_equal.
    rewrite firstn_app, map_length, app_length. cbn [length]. rewrite Nat.sub_diag. cbn [firstn]. rewrite app_nil_r.
    apply firstn_all2. rewrite map_length, app_length. cbn [length]. lia.
  - intros L. unfold store. match goal with |- bind (if ?b then _ else _) _ = _ => destruct b eqn:E end; [|reflexivity].
    apply Nat.leb_le in E. cbn [firstn app map length Nat.add] in E. rewrite skipn_length, repeat_length, app_length in E. cbn [length] in E. lia.
Qed.
Print Assumptions C69_open.

Lemma u_inv s o e s' : ustep s o = Ok (e, s') -> shape s ->
  shape s' /\ firstn 2 (mDestination s') = firstn 2 (mDestination s) /\
  ((forall data from, o = URead (Packet data from) -> from = []) -> mSource s' = mSource s) /\
  (forall data from, o = URead (Packet data from) -> store (mSource s) 0 from = Ok (mSource s')).
Proof.
  intros E [H1 H2]. destruct o as [path|m up|m up|x]; cbn [ustep] in E.
  - apply bind_ok in E. destruct E as (s1 & E1 & E). apply Ok_inj in E. injection E as <- <-.
    unfold udd_destination in E1. apply bind_ok in E1. destruct E1 as (d & E1 & E). apply Ok_inj in E. subst s1. cbn [mDestination mSource].
    pose proof (store_length _ _ _ _ E1) as L. apply store_inv in E1. destruct E1 as [G ->].
    split; [split; cbn [mDestination mSource]; lia|]. split; [|split; [reflexivity|intros; discriminate]].
    rewrite firstn_app, firstn_firstn, firstn_length, H1. change (2 - Nat.min 2 256)%nat with 0%nat. cbn [firstn]. rewrite app_nil_r. reflexivity.
  - apply bind_ok in E. destruct E as (e1 & E1 & E). apply Ok_inj in E. injection E as <- <-. split; [split; assumption|]. split; [reflexivity|]. split; [reflexivity|intros; discriminate].
  - apply bind_ok in E. destruct E as (e1 & E1 & E). apply Ok_inj in E. injection E as <- <-. split; [split; assumption|]. split; [reflexivity|]. split; [reflexivity|intros; discriminate].
  - destruct (read_inv _ s x e s' E) as [D [[S0 N]|(data & from & -> & S0)]].
    + split; [unfold shape; rewrite D, S0; auto|]. rewrite D. split; [reflexivity|]. split; [auto|]. intros data from K. injection K as ->. exfalso. exact (N _ _ eq_refl).
    + split; [unfold shape; rewrite D, (store_length _ _ _ _ S0); auto|]. rewrite D. split; [reflexivity|]. split.
      * intros Q. specialize (Q _ _ eq_refl). subst from. apply store_inv in S0. destruct S0 as [_ ->]. reflexivity.
      * intros data' from' K. injection K as <- <-. exact S0.
Qed.
Lemma urun_app : forall l1 l2 s es s', urun s (l1 ++ l2) = Ok (es, s') ->
  exists es1 es2 s1, urun s l1 = Ok (es1, s1) /\ urun s1 l2 = Ok (es2, s') /\ es = es1 ++ es2.
Proof.
  induction l1 as [|o l1 IH]; intros l2 s es s' E; [exists [], es, s; auto|].
  cbn [app urun] in *. apply bind_ok in E. destruct E as ([e s1] & E1 & E). apply bind_ok in E. destruct E as ([es2 s2] & E2 & E).
  apply Ok_inj in E. injection E as <- <-. destruct (IH l2 s1 es2 s2 E2) as (a & b & s3 & A & B & ->).
  exists (e :: a), b, s3. rewrite E1. cbn [bind]. rewrite A. auto.
Qed.
(** No packet with a sender's name arrives in this call. *)
Definition nameless (o : uop) : Prop := forall data from, o = URead (Packet data from) -> from = [].
Lemma urun_inv : forall l s es s', urun s l = Ok (es, s') -> shape s ->
  shape s' /\ firstn 2 (mDestination s') = firstn 2 (mDestination s) /\ (Forall nameless l -> mSource s' = mSource s).
Proof.
  induction l as [|o l IH]; intros s es s' E H; cbn [urun] in E.
  - apply Ok_inj in E. injection E as <- <-. auto.
  - apply bind_ok in E. destruct E as ([e s1] & E1 & E). apply bind_ok in E. destruct E as ([es2 s2] & E2 & E).
    apply Ok_inj in E. injection E as <- <-. destruct (u_inv s o e s1 E1 H) as (H1 & D & Q & _).
    destruct (IH s1 es2 s2 E2 H1) as (H2 & D2 & Q2). split; [exact H2|]. split; [congruence|].
    intros F. inversion F; subst. rewrite Q2 by assumption. apply Q. assumption.
Qed.

(** Defect: destination never sets the family, so write never sends anything, whatever was done before. *)
Theorem C69_write_refuted : forall buf l es s message up,
  urun (sock0 buf) l = Ok (es, s) -> ustep s (UWrite message up) = Ok (Sends None (-1), s).
Proof.
  intros buf l es s message up E. destruct (urun_inv l _ _ _ E (shape0 buf)) as (H & D & _).
  change (firstn 2 (mDestination (sock0 buf))) with [Some 0; Some 0] in D.
  cbn [ustep]. unfold write_, unix_target, byte. destruct (mDestination s) as [|a [|b m]]; [discriminate|discriminate|].
  cbn [firstn] in D. injection D as -> ->. reflexivity.
Qed.
Print Assumptions C69_write_refuted.

(** The path is copied without a check: 253 characters fit into the buffer. *)
Theorem C69_destination : forall buf l es s path junk, no_nul path ->
  urun (sock0 buf) l = Ok (es, s) ->
  ((length path <= 253)%nat -> exists s', ustep s (UDestination (path ++ 0 :: junk)) = Ok (Returns 0, s')) /\
  ((253 < length path)%nat -> ustep s (UDestination (path ++ 0 :: junk)) = UB).
Proof.
  intros buf l es s path junk N E. destruct (urun_inv l _ _ _ E (shape0 buf)) as ([H _] & _ & _).
  cbn [ustep]. unfold udd_destination. rewrite (c_str_text path junk N). split; intros L.
  - rewrite store_ok by (rewrite app_length, H; cbn [length]; lia). cbn [bind]. eexists. reflexivity.
  - unfold store. match goal with |- context [if ?b then _ else _] => destruct b eqn:G end; [|reflexivity].
    apply Nat.leb_le in G. rewrite app_length, H in G. cbn [length] in G. lia.
Qed.
Print Assumptions C69_destination.

Definition usent (path message : list Z) (up : bool) : effect (list Z) :=
  if up && (Z.of_nat (length message) <=? 212960) then Sends (Some (path, message)) (Z.of_nat (length message)) else Sends None (-1).
(** writeBack answers the last sender that had a name.  That is the last sender, unless one
    without a name has sent since (defect: the answer then goes to the wrong one). *)
Theorem C69_write_back : forall buf l1 data path l2 es s message up,
  urun (sock0 buf) (l1 ++ URead (Packet data (unix_from path)) :: l2) = Ok (es, s) ->
  no_nul path -> path <> [] -> (length path <= 107)%nat -> Forall nameless l2 ->
  ustep s (UWriteBack message up) = Ok (usent path message up, s).
Proof.
  intros buf l1 data path l2 es s message up E N P L F.
  destruct (urun_app l1 _ _ _ _ E) as (es1 & es2 & s1 & A & B & ->).
  destruct (urun_inv l1 _ _ _ A (shape0 buf)) as (H1 & _ & _).
  cbn [urun] in B. apply bind_ok in B. destruct B as ([e s2] & B1 & B). apply bind_ok in B. destruct B as ([es3 s3] & B2 & B).
  apply Ok_inj in B. injection B as <- <-. destruct (u_inv s1 _ e s2 B1 H1) as (H2 & _ & _ & D).
  specialize (D _ _ eq_refl). apply store_inv in D. destruct D as [_ D].
  destruct (urun_inv l2 _ _ _ B2 H2) as (H3 & _ & D3). specialize (D3 F).
  assert (K : holds_unix (mSource s3) path).
  { unfold holds_unix. rewrite D3, D. cbn [firstn app]. assert (Q : length (unix_from path) = (length path + 3)%nat) by (unfold unix_from; rewrite !app_length; cbn [length]; lia).
    rewrite firstn_app, map_length, Q, Nat.sub_diag, firstn_all2 by (rewrite map_length; lia). cbn [firstn]. apply app_nil_r. }
  cbn [ustep]. unfold writeBack_. rewrite (unix_target_holds _ path K N ltac:(lia)). destruct path; [contradiction|]. reflexivity.
Qed.
Print Assumptions C69_write_back.

Theorem C69_write_back_first_refuted : forall buf l es s message up,
  urun (sock0 buf) l = Ok (es, s) -> Forall nameless l -> ustep s (UWriteBack message up) = UB.
Proof.
  intros buf l es s message up E F. destruct (urun_inv l _ _ _ E (shape0 buf)) as (H & _ & D). specialize (D F).
  cbn [ustep]. unfold writeBack_. rewrite D. reflexivity.
Qed.
Print Assumptions C69_write_back_first_refuted.

Example C69_example :
  match urun (sock0 (repeat None 4)) [UDestination (lit "/tmp/b" ++ [0]); UWrite [1] true; URead (Packet [7] (unix_from (lit "/tmp/long"))); URead (Packet [8] (unix_from (lit "/x")));
    UWriteBack [9] true; URead (Packet [3] []); UWriteBack [4] true] with
  | Ok (es, s) => es = [Returns 0; Sends None (-1); Returns 1; Returns 1; Sends (Some (lit "/x", [9])) 1; Returns 1; Sends (Some (lit "/x", [4])) 1]
  | _ => False end /\ udd_open (lit "/tmp/a" ++ [0; 1]) = Ok (Some (lit "/tmp/a")).
Proof. vm_compute. split; reflexivity. Qed.

(** * C70: descriptors *)
(** Which objects are alive after a use of constructors and destructors that C++ allows; [n] were made before. *)
Fixpoint owners (alive : list nat) (n : nat) (l : list pop) : option (list nat) :=
  match l with
  | [] => Some alive
  | NewSocket :: t => owners (S n :: alive) (S n) t
  | Destruct i :: t => if in_dec Nat.eq_dec i alive then owners (remove Nat.eq_dec i alive) n t else None
  | OtherOpen :: t | OtherClose _ :: t => owners alive n t
  | _ => None
  end.
Fixpoint destroyed (l : list pop) : list nat :=
  match l with [] => [] | Destruct i :: t => i :: destroyed t | _ :: t => destroyed t end.

Lemma lowest_taken p : forall n fd, taken p (lowest n p fd) = true -> forall k, (k <= n)%nat -> taken p (fd + k) = true.
Proof.
  induction n as [|n IH]; intros fd H k K; cbn [lowest] in H.
  - replace (fd + k)%nat with fd by lia. exact H.
  - destruct (taken p fd) eqn:T; [|congruence]. destruct k as [|k]; [rewrite Nat.add_0_r; exact T|].
    replace (fd + S k)%nat with (S fd + k)%nat by lia. apply IH; [exact H|lia].
Qed.
Lemma taken_in p fd : taken p fd = true <-> In fd (map fst (table p)).
Proof.
  unfold taken. rewrite existsb_exists, in_map_iff. split.
  - intros (e & I & E). exists e. apply Nat.eqb_eq in E. auto.
  - intros (e & E & I). exists e. subst fd. split; [exact I|apply Nat.eqb_refl].
Qed.
Lemma new_fd_fresh p : ~ In (new_fd p) (map fst (table p)).
Proof.
  intros I. apply taken_in in I. pose proof (lowest_taken p _ _ I) as H.
  assert (L : (length (seq 0 (S (length (table p)))) <= length (map fst (table p)))%nat).
  { apply NoDup_incl_length; [apply seq_NoDup|]. intros k K. apply in_seq in K. apply taken_in. apply (H k). lia. }
  rewrite seq_length, map_length in L. lia.
Qed.
Lemma lowest_table p q : table p = table q -> forall n fd, lowest n p fd = lowest n q fd.
Proof.
  intros E. induction n as [|n IH]; intros fd; [reflexivity|]. cbn [lowest]. unfold taken. rewrite E. destruct (existsb _ (table q)); [apply IH|reflexivity].
Qed.
Lemma new_fd_table p q : table p = table q -> new_fd p = new_fd q.
Proof. intros E. unfold new_fd. rewrite E. apply lowest_table. exact E. Qed.
Lemma close_fd_in : forall t fd o, NoDup (map fst t) -> In (fd, o) t ->
  exists t', close_fd t fd = (t', Some o) /\ NoDup (map fst t') /\ (forall e, In e t' <-> In e t /\ fst e <> fd).
Proof.
  induction t as [|[x y] t IH]; intros fd o N I; [destruct I|]. cbn [map fst] in N. inversion N as [|? ? N1 N2]; subst. cbn [close_fd].
  destruct (Nat.eqb_spec x fd) as [->|D].
  - assert (Q : y = o). { destruct I as [E|I]; [congruence|]. exfalso. apply N1. apply in_map_iff. exists (fd, o). auto. }
    subst y. exists t. split; [reflexivity|]. split; [exact N2|]. intros e. split.
    + intros J. split; [right; exact J|]. intros E. apply N1. apply in_map_iff. exists e. auto.
    + intros [[J|J] E]; [subst e; contradiction|exact J].
  - destruct I as [E|I]; [congruence|]. destruct (IH fd o N2 I) as (t' & E & N' & M). rewrite E. eexists. split; [reflexivity|]. split.
    + cbn [map fst]. constructor; [|exact N']. intros J. apply N1. apply in_map_iff in J. destruct J as (e & <- & J). apply in_map. apply M. exact J.
    + intros e. cbn [In]. rewrite M. split.
      * intros [<-|[J K]]; [split; [left; reflexivity|exact D]|auto].
      * intros [[<-|J] K]; auto.
Qed.
Lemma close_fd_some : forall t fd t' o, close_fd t fd = (t', Some o) -> In (fd, o) t.
Proof.
  induction t as [|[x y] t IH]; intros fd t' o E; cbn [close_fd] in E; [discriminate|].
  destruct (Nat.eqb_spec x fd) as [->|D]; [injection E as _ ->; left; reflexivity|].
  destruct (close_fd t fd) as [r c] eqn:K. injection E as _ ->. right. exact (IH _ _ _ K).
Qed.
(** The objects alive and the table agree. *)
Definition own (alive : list nat) (n : nat) (p : proc) : Prop :=
  made p = n /\ NoDup (map fst (table p)) /\
  (forall i, In i alive -> (i <= n)%nat /\ exists fd, fd_of (live p) i = Some (Some fd) /\ In (fd, Some i) (table p)) /\
  (forall fd i, In (fd, Some i) (table p) -> In i alive /\ fd_of (live p) i = Some (Some fd)).

Lemma fd_of_without l i j : i <> j -> fd_of (without l i) j = fd_of l j.
Proof.
  intros D. induction l as [|[k f] t IH]; [reflexivity|]. unfold without. cbn [filter fst fd_of]. fold (without t i).
  destruct (Nat.eqb_spec k i) as [->|E]; cbn [negb].
  - destruct (Nat.eqb_spec i j); [contradiction|]. exact IH.
  - cbn [fd_of]. rewrite IH. reflexivity.
Qed.
Lemma fd_of_without_eq l i : fd_of (without l i) i = None.
Proof.
  induction l as [|[k f] t IH]; [reflexivity|]. unfold without. cbn [filter fst]. fold (without t i).
  destruct (Nat.eqb_spec k i) as [->|D]; cbn [negb]; [exact IH|]. cbn [fd_of]. destruct (Nat.eqb_spec k i); [contradiction|exact IH].
Qed.
Lemma own_step : forall l alive n p alive', own alive n p -> owners alive n l = Some alive' ->
  exists p' n', prun p l = Ok (p', map (fun i => (i, Some (Some i))) (destroyed l)) /\ own alive' n' p'.
Proof.
  induction l as [|o t IH]; intros alive n p alive' W E.
  - injection E as <-. exists p, n. auto.
  - destruct W as (Wm & Wn & Wa & Wt). destruct o; cbn [owners] in E; try discriminate; cbn [prun pstep destroyed].
    + (* NewSocket *)
      destruct (IH (S n :: alive) (S n) (open_for (Proc (table p) (live p) (S (made p))) (S (made p)) (live p)) alive') as (p' & n' & R & O).
      * unfold own, open_for. cbn [made table live]. rewrite (new_fd_table (Proc (table p) (live p) (S (made p))) p eq_refl). rewrite Wm. split; [reflexivity|]. split.
        { cbn [map fst]. constructor; [apply new_fd_fresh|exact Wn]. }
        split.
        { intros i [<-|I].
          - split; [lia|]. exists (new_fd p). cbn [fd_of]. rewrite Nat.eqb_refl. split; [reflexivity|left; reflexivity].
          - destruct (Wa i I) as (L & fd & F & J). split; [lia|]. exists fd. cbn [fd_of]. destruct (Nat.eqb_spec (S n) i); [lia|]. split; [exact F|right; exact J]. }
        intros fd i [J|J].
        { injection J as <- <-. split; [left; reflexivity|]. cbn [fd_of]. rewrite Nat.eqb_refl. reflexivity. }
        { destruct (Wt fd i J) as [I F]. destruct (Wa i I) as (L & _). split; [right; exact I|]. cbn [fd_of]. destruct (Nat.eqb_spec (S n) i); [lia|]. exact F. }
      * exact E.
      * cbn [made live bind]. rewrite R. cbn [bind]. exists p', n'. split; [reflexivity|exact O].
    + (* Destruct *)
      destruct (in_dec Nat.eq_dec i alive) as [I|I]; [|discriminate]. destruct (Wa i I) as (L & fd & F & J).
      destruct (close_fd_in (table p) fd (Some i) Wn J) as (t' & C & N' & M).
      unfold close_of. rewrite F, C. cbn [bind table live made].
      destruct (IH (remove Nat.eq_dec i alive) n (Proc t' (without (live p) i) (made p)) alive') as (p' & n' & R & O).
      * unfold own. cbn [made table live]. split; [exact Wm|]. split; [exact N'|]. split.
        { intros j K. apply in_remove in K. destruct K as [K D]. destruct (Wa j K) as (L2 & fd2 & F2 & J2). split; [exact L2|]. exists fd2.
          rewrite fd_of_without by auto. split; [exact F2|]. apply M. split; [exact J2|]. cbn [fst]. intros ->.
          assert (Q : Some i = Some j); [|congruence].
          destruct (close_fd_in (table p) fd (Some j) Wn J2) as (t2 & C2 & _). rewrite C in C2. congruence. }
        { intros fd2 j K. apply M in K. destruct K as [K D]. destruct (Wt fd2 j K) as [I2 F2]. cbn [fst] in D.
          assert (Q : j <> i). { intros ->. apply D. congruence. }
          split; [apply in_in_remove; assumption|]. rewrite fd_of_without by auto. exact F2. }
      * exact E.
      * rewrite R. cbn [bind map app]. exists p', n'. split; [reflexivity|exact O].
    + (* OtherOpen *)
      destruct (IH alive n (Proc ((new_fd p, None) :: table p) (live p) (made p)) alive') as (p' & n' & R & O).
      * unfold own. cbn [made table live]. split; [exact Wm|]. split.
        { cbn [map fst]. constructor; [apply new_fd_fresh|exact Wn]. }
        split.
        { intros i I. destruct (Wa i I) as (L & fd & F & J). split; [exact L|]. exists fd. split; [exact F|right; exact J]. }
        { intros fd i [J|J]; [discriminate|]. exact (Wt fd i J). }
      * exact E.
      * cbn [bind]. rewrite R. cbn [bind]. exists p', n'. split; [reflexivity|exact O].
    + (* OtherClose *)
      assert (Q : own alive n (match close_fd (table p) fd with (t0, Some None) => Proc t0 (live p) (made p) | _ => p end)).
      { destruct (close_fd (table p) fd) as [t0 [[o|]|]] eqn:C; try (unfold own; auto; fail).
        pose proof (close_fd_some _ _ _ _ C) as J. destruct (close_fd_in (table p) fd None Wn J) as (t' & C' & N' & M). rewrite C in C'. injection C' as <-.
        unfold own. cbn [made table live]. split; [exact Wm|]. split; [exact N'|]. split.
        - intros i I. destruct (Wa i I) as (L & fd2 & F & J2). split; [exact L|]. exists fd2. split; [exact F|]. apply M. split; [exact J2|]. cbn [fst]. intros ->.
          destruct (close_fd_in (table p) fd (Some i) Wn J2) as (t2 & C2 & _). rewrite C in C2. discriminate.
        - intros fd2 i K. apply M in K. destruct K as [K _]. exact (Wt fd2 i K). }
      destruct (IH alive n _ alive' Q E) as (p' & n' & R & O). cbn [bind]. rewrite R. cbn [bind]. exists p', n'. split; [reflexivity|exact O].
Qed.

(** Objects that are only constructed (opened once) and destroyed: no undefined behaviour, every
    destructor closes the object's own descriptor and nothing else, and afterwards each
    object alive has exactly one descriptor and no other descriptor of any object is left. *)
Theorem C70_own : forall l alive, owners [] 0 l = Some alive ->
  exists p, prun proc0 l = Ok (p, map (fun i => (i, Some (Some i))) (destroyed l)) /\
  (forall i, In i alive <-> exists fd, In (fd, Some i) (table p)) /\
  (forall fd fd' i, In (fd, Some i) (table p) -> In (fd', Some i) (table p) -> fd = fd') /\
  NoDup (map fst (table p)).
Proof.
  intros l alive E. destruct (own_step l [] 0%nat proc0 alive) as (p & n & R & Wm & Wn & Wa & Wt).
  - unfold own, proc0. cbn [made table live map]. split; [reflexivity|]. split; [constructor|]. split; [intros i []|intros fd i []].
  - exact E.
  - exists p. split; [exact R|]. split; [|split; [|exact Wn]].
    + intros i. split; [intros I; destruct (Wa i I) as (_ & fd & _ & J); eauto|]. intros (fd & J). exact (proj1 (Wt fd i J)).
    + intros fd fd' i A B. apply Wt in A. apply Wt in B. destruct A as [_ A]. destruct B as [_ B]. congruence.
Qed.
Print Assumptions C70_own.

(** Defect: the destructor closes again what close() has closed, by then perhaps another's file. *)
Theorem C70_close_refuted : forall p, let i := S (made p) in exists p',
  prun p [NewSocket; Close i; OtherOpen; Destruct i] = Ok (p', [(i, Some (Some i)); (i, Some None)]).
Proof.
  intros p i. unfold i. cbn -[new_fd Nat.eqb]. unfold close_of. cbn -[new_fd Nat.eqb]. rewrite !Nat.eqb_refl. cbn -[new_fd Nat.eqb]. rewrite !Nat.eqb_refl. cbn -[new_fd Nat.eqb].
  rewrite !(fun l => new_fd_table (Proc (table p) l (S (made p))) p eq_refl). rewrite !Nat.eqb_refl. cbn -[new_fd Nat.eqb]. eexists. reflexivity.
Qed.
Print Assumptions C70_close_refuted.

(** Defect: opening a second time loses the first descriptor: it stays open when the object is gone. *)
Theorem C70_reopen_refuted : forall p, let i := S (made p) in exists p',
  prun p [NewSocket; Reopen i; Destruct i] = Ok (p', [(i, Some (Some i))]) /\
  fd_of (live p') i = None /\ In (new_fd p, Some i) (table p').
Proof.
  intros p i. unfold i. cbn -[new_fd Nat.eqb without]. rewrite !Nat.eqb_refl. unfold close_of, open_for. cbn -[new_fd Nat.eqb without]. rewrite !Nat.eqb_refl. cbn -[new_fd Nat.eqb without].
  rewrite ?Nat.eqb_refl. cbn -[new_fd Nat.eqb without]. rewrite !(fun l => new_fd_table (Proc (table p) l (S (made p))) p eq_refl).
  eexists. split; [reflexivity|]. cbn [live table]. split; [|left; reflexivity].
  apply fd_of_without_eq.
Qed.
Print Assumptions C70_reopen_refuted.

(** Defect: a Unix socket that was never opened closes an arbitrary descriptor when destroyed. *)
Theorem C70_unopened_refuted : forall p, prun p [NewUnopened; Destruct (S (made p))] = UB.
Proof. intros p. cbn [prun pstep bind]. unfold close_of. cbn [live fd_of]. rewrite Nat.eqb_refl. reflexivity. Qed.
Print Assumptions C70_unopened_refuted.

Example C70_example :
  let l := [OtherOpen; NewSocket; NewSocket; OtherOpen; Destruct 1; NewSocket; OtherClose 0; Destruct 2] in
  owners [] 0 l = Some [3]%nat /\
  match prun proc0 l with
  | Ok (p, cs) => table p = [(1, Some 3); (3, None)]%nat /\ cs = [(1, Some (Some 1)); (2, Some (Some 2))]%nat
  | _ => False end.
Proof. vm_compute. repeat split. Qed.
