(** Property C48: which values isValidValue accepts. *)
From Verif Require Import Base BaseFacts UtilsModel UtilsSpec UtilsProofs UtilsProofs2 SqlModel SqlProofs ConfigModel ConfigSpec ConfigProofs NumProofs ValidModel ValidSpec ValidProofs.
Local Open Scope Z_scope.

Lemma plus_of_spec p (P : Z -> Prop) s : (forall c, p c = true <-> P c) -> plus_of p s = true <-> s <> [] /\ Forall P s.
Proof.
  intros H. unfold plus_of. destruct s as [|c s]; [split; [discriminate|intros [K _]; contradiction K; reflexivity]|].
  rewrite forallb_forall, Forall_forall. split; [intros K; split; [discriminate|intros x Hx; apply H, K, Hx]|intros [_ K] x Hx; apply H, K, Hx].
Qed.
Lemma host_char_spec c : host_char c = true <-> is_letter_or_digit c \/ In c (lit "_.-").
Proof. unfold host_char, alnum, is_letter_or_digit. change (lit "_.-") with [95; 46; 45]. cbn [In]. lia. Qed.
Lemma path_char_spec c : path_char c = true <-> is_letter_or_digit c \/ In c (lit "/_.-").
Proof. unfold path_char, alnum, is_letter_or_digit. change (lit "/_.-") with [47; 95; 46; 45]. cbn [In]. lia. Qed.
Lemma octet_chars o : octet o -> o <> [] /\ Forall (fun c => 48 <= c <= 57) o.
Proof.
  intros (d & ds & D & _). split; [inversion D; discriminate|]. apply (proj2 (digit_string_map o)). exists (d :: ds). exact D.
Qed.
Lemma quad_host s : dotted_quad s -> host_name s.
Proof.
  intros (a & b & c & d & A & B & C & D & ->). destruct (octet_chars a A) as [Na Fa]. destruct (octet_chars b B) as [_ Fb]. destruct (octet_chars c C) as [_ Fc]. destruct (octet_chars d D) as [_ Fd].
  split; [intros K; apply app_eq_nil in K; exact (Na (proj1 K))|]. change (lit "_.-") with [95; 46; 45].
  assert (L : forall o, Forall (fun c => 48 <= c <= 57) o -> Forall (fun c => is_letter_or_digit c \/ In c [95; 46; 45]) o).
  { intros o H. eapply Forall_impl; [|exact H]. intros x Hx. left. left. exact Hx. }
  assert (P : is_letter_or_digit 46 \/ In 46 [95; 46; 45]) by (right; right; left; reflexivity).
  apply Forall_app. split; [apply L, Fa|]. constructor; [exact P|]. apply Forall_app. split; [apply L, Fb|]. constructor; [exact P|]. apply Forall_app. split; [apply L, Fc|]. constructor; [exact P|]. apply L, Fd.
Qed.
Lemma valid_host_spec s : no_nul s -> valid_host s = true <-> host_name s.
Proof.
  intros N. unfold valid_host. rewrite orb_true_iff, isValidIP_spec by exact N. rewrite c_str_id by exact N. rewrite (plus_of_spec _ _ s host_char_spec).
  split; [intros [H|H]; [apply quad_host; exact H|exact H]|intros H; right; exact H].
Qed.
Lemma no_nul_split a c b : no_nul (a ++ c :: b) -> no_nul a /\ no_nul b.
Proof. intros N. split; intros K; apply N, in_app_iff; [left; exact K|right; right; exact K]. Qed.

(** All types that split a value at a delimiter. *)
Lemma split_spec (ok : list Z -> bool) (P : list Z -> Prop) lo hi c val : (forall s, no_nul s -> ok s = true <-> P s) -> 0 <= lo -> hi < 2 ^ 31 - 1 -> sane val ->
  exists b, (do (ip, n) <- split_at val c; Ok (ok ip && (lo <=? n) && (n <=? hi))) = Ok b /\
    (b = true <->
     (exists ip tail n, val = ip ++ c :: tail /\ ~ In c ip /\ P ip /\ leading_number tail n /\ lo <= n <= hi) \/
     (~ In c val /\ P val /\ exists n, leading_number val n /\ lo <= n <= hi)).
Proof.
  intros H L R [N B]. fold (len val) in B. destruct (in_dec Z.eq_dec c val) as [I|I].
  - destruct (in_split_first c val I) as (ip & tail & -> & Ni). rewrite split_at_found by assumption. cbn [bind]. eexists. split; [reflexivity|].
    destruct (no_nul_split ip c tail N) as [Nip _]. rewrite !andb_true_iff, H, !Z.leb_le by exact Nip. pose proof (extract_range tail lo hi L R) as X. split.
    + intros [[V A] A']. destruct (proj1 X (conj A A')) as (n & Hn & Rn). left. exists ip, tail, n. repeat split; try assumption; lia.
    + intros [(ip' & tail' & n & E & Ni' & V & Hn & Rn)|(K & _)]; [|contradiction (K I)].
      assert (ip' = ip /\ tail' = tail) as [-> ->].
      { clear -E Ni Ni'. revert ip' Ni' E. induction ip as [|x ip IH]; intros [|y ip'] Ni' E; cbn [app] in E.
        - injection E as ->. split; reflexivity.
        - injection E as <- _. contradiction Ni'. left. reflexivity.
        - injection E as -> _. contradiction Ni. left. reflexivity.
        - injection E as -> E. destruct (IH ltac:(intros K; apply Ni; right; exact K) ip' ltac:(intros K; apply Ni'; right; exact K) E) as [-> ->]. split; reflexivity. }
      destruct (proj2 X (ex_intro _ n (conj Hn Rn))) as [A A']. repeat split; assumption.
  - rewrite split_at_missing by assumption. cbn [bind]. eexists. split; [reflexivity|]. rewrite !andb_true_iff, H, !Z.leb_le by exact N. pose proof (extract_range val lo hi L R) as X. split.
    + intros [[V A] A']. right. split; [exact I|]. split; [exact V|]. exact (proj1 X (conj A A')).
    + intros [(ip' & tail' & n & -> & _)|(_ & V & E)]; [contradiction I; apply in_app_iff; right; left; reflexivity|]. destruct (proj2 X E) as [A A']. repeat split; assumption.
Qed.

(** What the schema says about [name]. *)
Definition declared (S : list Z -> option (ktype * list Z)) (name : list Z) (type : ktype) (validValues : list Z) : Prop := S name = Some (type, validValues).
Definition decides (r : res bool) (P : Prop) : Prop := exists b, r = Ok b /\ (b = true <-> P).

Theorem C48_boolean R F S name vv val : declared S name BOOLEAN vv -> decides (isValidValue R F S name val) (val = lit "0" \/ val = lit "1").
Proof.
  intros D. unfold isValidValue. rewrite D. cbn [optional andb base_valid]. eexists. split; [reflexivity|]. rewrite orb_true_iff, !streq_iff. tauto.
Qed.
(** An optional type accepts the empty text and is otherwise as the type it belongs to. *)
Theorem C48_optional R F S S' name type vv val : required type <> type -> declared S name type vv -> declared S' name (required type) vv ->
  isValidValue R F S name [] = Ok true /\ (val <> [] -> isValidValue R F S name val = isValidValue R F S' name val).
Proof.
  intros O' D D'. assert (O : optional type = true) by (destruct type; solve [reflexivity|contradiction O'; reflexivity]). unfold isValidValue. rewrite D, D', O. split; [reflexivity|]. intros NE.
  assert (len val =? 0 = false) as -> by (destruct val; [contradiction NE; reflexivity|rewrite len_cons; pose proof (len_nonneg val); lia]).
  destruct type; try discriminate; reflexivity.
Qed.
(** Regular expressions: whatever the regular expression library can compile.  Strings: whatever the
    expression of the schema matches. *)
Theorem C48_regex R F S name vv val : declared S name REGEX vv -> no_nul val -> decides (isValidValue R F S name val) (R val [] <> None).
Proof.
  intros D N. unfold isValidValue. rewrite D. cbn [optional andb base_valid]. rewrite c_str_id by exact N. eexists. split; [reflexivity|]. destruct (R val []); split; congruence.
Qed.
Theorem C48_string R F S name vv val : declared S name STRING vv -> no_nul val -> no_nul vv -> decides (isValidValue R F S name val) (R vv val = Some true).
Proof.
  intros D N V. unfold isValidValue. rewrite D. cbn [optional andb base_valid]. rewrite !c_str_id by assumption. eexists. split; [reflexivity|]. destruct (R vv val) as [[|]|]; split; congruence.
Qed.
Theorem C48_choice R F S name l val : declared S name CHOICE (join_with 44 (map (fun e => fst e ++ 124 :: snd e) l)) -> l <> [] ->
  Forall (fun e => free_of (lit ",|") (fst e) /\ free_of (lit ",|") (snd e)) l ->
  Z.of_nat (length (join_with 44 (map (fun e => fst e ++ 124 :: snd e) l))) < 2 ^ 31 ->
  decides (isValidValue R F S name val) (In val (map fst l)).
Proof.
  intros D NE H L. unfold isValidValue. rewrite D. cbn [optional andb base_valid]. unfold valid_choice.
  pose proof (choice_described val l (Datatypes.S (length (described l))) [] NE H L ltac:(lia)) as E. cbn [app] in E. change (len [] - 1) with (-1) in E. fold (described l). rewrite E.
  eexists. split; [reflexivity|]. rewrite existsb_exists. split; [intros (x & I & Q); apply streq_iff in Q; subst; exact I|intros I; exists val; split; [exact I|apply streq_iff; reflexivity]].
Qed.
(** Without descriptions the only acceptable values are the list itself and what is left of it when leading alternatives are dropped. *)
Theorem C48_choice_undescribed R F S name l val : declared S name CHOICE (join_with 44 l) -> l <> [] -> Forall (free_of (lit ",|")) l ->
  Z.of_nat (length (join_with 44 l)) < 2 ^ 31 ->
  decides (isValidValue R F S name val) (exists l1 l2, l = l1 ++ l2 /\ l2 <> [] /\ val = join_with 44 l2).
Proof.
  intros D NE H L. unfold isValidValue. rewrite D. cbn [optional andb base_valid]. unfold valid_choice.
  pose proof (choice_plain val l (Datatypes.S (length (join_with 44 l))) [] NE H L ltac:(lia)) as E. cbn [app] in E. change (len [] - 1) with (-1) in E. rewrite E.
  eexists. split; [reflexivity|]. rewrite existsb_exists. clear. split.
  - intros (x & I & Q). apply streq_iff in Q. subst x. induction l as [|a l IH]; [destruct I|]. destruct I as [I|I]; [exists [], (a :: l); repeat split; [discriminate|symmetry; exact I]|].
    destruct (IH I) as (l1 & l2 & -> & NE & E). exists (a :: l1), l2. repeat split; assumption.
  - intros (l1 & l2 & -> & NE & ->). exists (join_with 44 l2). split; [|apply streq_iff; reflexivity]. induction l1 as [|a l1 IH]; [destruct l2; [contradiction NE; reflexivity|left; reflexivity]|right; exact IH].
Qed.
Theorem C48_address R F S name vv val : declared S name IPADDRESS vv -> no_nul val -> decides (isValidValue R F S name val) (dotted_quad val).
Proof. intros D N. unfold isValidValue. rewrite D. cbn [optional andb base_valid]. eexists. split; [reflexivity|]. apply isValidIP_spec. exact N. Qed.
(** A block; the second case is a bare address that starts with a number up to 32. *)
Theorem C48_cidr R F S name vv val : declared S name CIDR vv -> sane val ->
  decides (isValidValue R F S name val)
    ((exists ip tail n, val = ip ++ 47 :: tail /\ ~ In 47 ip /\ dotted_quad ip /\ leading_number tail n /\ 0 <= n <= 32) \/
     (~ In 47 val /\ dotted_quad val /\ exists n, leading_number val n /\ 0 <= n <= 32)).
Proof.
  intros D H. unfold isValidValue. rewrite D. cbn [optional andb base_valid]. unfold valid_cidr. apply split_spec; [intros s Hs; apply isValidIP_spec; exact Hs|lia|lia|exact H].
Qed.
Theorem C48_host_and_port R F S name vv val : declared S name HOSTANDPORT vv -> sane val ->
  decides (isValidValue R F S name val)
    ((exists host tail n, val = host ++ 58 :: tail /\ ~ In 58 host /\ host_name host /\ leading_number tail n /\ 1 <= n <= 65535) \/
     (~ In 58 val /\ host_name val /\ exists n, leading_number val n /\ 1 <= n <= 65535)).
Proof.
  intros D H. unfold isValidValue. rewrite D. cbn [optional andb base_valid]. unfold valid_hostport. apply split_spec; [intros s Hs; apply valid_host_spec; exact Hs|lia|lia|exact H].
Qed.
Theorem C48_address_and_port R F S name vv val : declared S name IPANDPORT vv -> sane val ->
  decides (isValidValue R F S name val)
    ((exists ip tail n, val = ip ++ 58 :: tail /\ ~ In 58 ip /\ dotted_quad ip /\ leading_number tail n /\ 1 <= n <= 65535) \/
     (~ In 58 val /\ dotted_quad val /\ exists n, leading_number val n /\ 1 <= n <= 65535)).
Proof.
  intros D H. unfold isValidValue. rewrite D. cbn [optional andb base_valid]. unfold valid_ipport. apply split_spec; [intros s Hs; apply isValidIP_spec; exact Hs|lia|lia|exact H].
Qed.
(** A list of addresses without ports. *)
Theorem C48_address_list R F S name vv l : declared S name MIPADDRESS vv -> l <> [] -> Forall (fun w => no_nul w /\ free_of (lit " :") w) l ->
  Z.of_nat (length (join_with 32 l)) < 2 ^ 31 ->
  decides (isValidValue R F S name (join_with 32 l)) (Forall dotted_quad l).
Proof.
  intros D NE H L. unfold isValidValue. rewrite D. cbn [optional andb base_valid]. unfold valid_mip.
  assert (H' : Forall (free_of [32; 58; 0]) l).
  { eapply Forall_impl; [|exact H]. intros w [N Fw] c Hc K. destruct Hc as [<-|[<-|[<-|[]]]]; [apply (Fw 32); [left; reflexivity|exact K]|apply (Fw 58); [right; left; reflexivity|exact K]|exact (N K)]. }
  pose proof (mip_plain l (Datatypes.S (length (join_with 32 l))) [] NE H' ltac:(intros c _ []) L ltac:(lia)) as E. cbn [app] in E. change (len [] - 1) with (-1) in E. rewrite E.
  eexists. split; [reflexivity|]. rewrite forallb_forall, Forall_forall. rewrite Forall_forall in H. split; intros K x Hx; [apply isValidIP_spec; [exact (proj1 (H x Hx))|exact (K x Hx)]|apply isValidIP_spec; [exact (proj1 (H x Hx))|exact (K x Hx)]].
Qed.
Theorem C48_port R F S name vv val : declared S name PORT vv -> ~ blank val -> decides (isValidValue R F S name val) (exists n, leading_number val n /\ 1 <= n <= 65535).
Proof.
  intros D B. unfold isValidValue. rewrite D. cbn [optional andb base_valid]. unfold valid_port. destruct (leading_exists val) as [K|(z & N)]; [contradiction|].
  pose proof (extract_range val 1 65535 ltac:(lia) ltac:(lia)) as X. unfold extract in X. rewrite (read_int_number val z N) in *. eexists. split; [reflexivity|]. rewrite andb_true_iff, !Z.leb_le. exact X.
Qed.
Theorem C48_file_path R F S name vv val : declared S name FILEPATH vv -> no_nul val -> decides (isValidValue R F S name val) (file_path val).
Proof.
  intros D N. unfold isValidValue. rewrite D. cbn [optional andb base_valid]. eexists. split; [reflexivity|]. rewrite c_str_id by exact N. apply (plus_of_spec _ _ val path_char_spec).
Qed.
(** A range of integers, with or without stepping. *)
Theorem C48_range R F S name smin smax steps lo hi val : declared S name VALRANGE (smin ++ 58 :: smax ++ steps) ->
  free_of (lit "(:.") smin -> free_of (lit "(,:.") smax -> steps = [] \/ (exists t, steps = 40 :: t /\ free_of (lit ".") t) ->
  Z.of_nat (length (smin ++ 58 :: smax ++ steps)) < 2 ^ 31 ->
  leading_number smin lo -> leading_number smax hi -> - 2 ^ 31 < lo -> hi < 2 ^ 31 - 1 -> lo < 2 ^ 31 - 1 -> - 2 ^ 31 < hi -> no_nul val ->
  decides (isValidValue R F S name val)
    (val <> [] /\ Forall (fun c => 48 <= c <= 57 \/ c = 45) val /\ exists z, leading_number val z /\ lo <= z <= hi).
Proof.
  intros D Hm Hx Hs L Nlo Nhi B1 B2 B3 B4 N. unfold isValidValue. rewrite D. cbn [optional andb base_valid].
  change (lit "(:.") with [40; 58; 46] in Hm. change (lit "(,:.") with [40; 44; 58; 46] in Hx. change (lit ".") with [46] in Hs.
  rewrite find0_none.
  2:{ intros K. apply in_app_iff in K. destruct K as [K|[K|K]]; [apply (Hm 46); [cbn [In]; tauto|exact K]|discriminate K|]. apply in_app_iff in K. destruct K as [K|K]; [apply (Hx 46); [cbn [In]; tauto|exact K]|].
      destruct Hs as [->|(t & -> & Ht)]; [destruct K|]. destruct K as [K|K]; [discriminate K|]. apply (Ht 46); [left; reflexivity|exact K]. }
  cbn [negb]. change (negb (npos =? npos)) with false. cbv iota. rewrite c_str_id by exact N.
  assert (RC : forall c, range_char c = true <-> 48 <= c <= 57 \/ c = 45) by (intros c; unfold range_char; lia).
  pose proof (plus_of_spec _ _ val RC) as P. destruct (plus_of range_char val) eqn:E.
  - destruct (proj1 P eq_refl) as [NE Fv]. unfold isInValRange. rewrite getMinMax_spec.
    2:{ intros c Hc. apply Hm. cbn [In] in *. tauto. }
    2:{ intros c Hc. apply Hx. cbn [In] in *. tauto. }
    2:{ destruct Hs as [->|(t & -> & _)]; [left; reflexivity|right; exists t; reflexivity]. }
    2:{ exact L. }
    cbn [bind]. rewrite (read_int_number smin lo Nlo), (read_int_number smax hi Nhi).
    destruct (leading_exists val) as [Bl|(z & Nz)].
    { exfalso. destruct val as [|c val]; [contradiction NE; reflexivity|]. inversion Bl as [|? ? Sp _]; subst. inversion Fv as [|? ? Rc _]; subst. unfold isspace in Sp. lia. }
    rewrite (read_int_number val z Nz). rewrite find0_none.
    2:{ intros K. rewrite Forall_forall in Fv. specialize (Fv 46 K). lia. }
    replace (npos =? npos) with true by reflexivity. cbn [andb]. eexists. split; [reflexivity|]. rewrite andb_true_iff, !Z.leb_le. unfold clamp_int. split.
    + intros [A A']. split; [exact NE|]. split; [exact Fv|]. exists z. split; [exact Nz|lia].
    + intros (_ & _ & z' & Nz' & A). pose proof (read_int_number val z Nz) as Q. rewrite (read_int_number val z' Nz') in Q. injection Q as Q. unfold clamp_int in Q. lia.
  - eexists. split; [reflexivity|]. split; [discriminate|]. intros (NE & Fv & _). apply P. split; assumption.
Qed.

(** ** Defects *)
Definition S1 (type : ktype) (vv : list Z) : list Z -> option (ktype * list Z) := fun _ => Some (type, vv).
Definition noregex : list Z -> list Z -> option bool := fun _ _ => None.
Definition nofloat : list Z -> list Z -> res bool := fun _ _ => Ok false.
Definition check (type : ktype) (vv val : list Z) : res bool := isValidValue noregex nofloat (S1 type vv) (lit "k") val.
(** Bare addresses and bare numbers pass for blocks and ports. *)
Theorem C48_delimiter_refuted :
  check CIDR [] (lit "10.1.2.3") = Ok true /\ check CIDR [] (lit "192.168.0.1") = Ok false /\
  check IPANDPORT [] (lit "127.0.0.1") = Ok true /\ check HOSTANDPORT [] (lit "1234") = Ok true /\ check HOSTANDPORT [] (lit "localhost") = Ok false.
Proof. repeat split; vm_compute; reflexivity. Qed.
(** Text behind a number is ignored, text instead of a prefix length counts as 0. *)
Theorem C48_trailing_refuted :
  check CIDR [] (lit "10.0.0.0/8x") = Ok true /\ check CIDR [] (lit "10.0.0.0/x") = Ok true /\ check PORT [] (lit "80abc") = Ok true /\
  check VALRANGE (lit "0:10") (lit "5-3") = Ok true /\ check VALRANGE (lit "0:10") (lit "-") = Ok true.
Proof. repeat split; vm_compute; reflexivity. Qed.
(** Numbers beyond int count as the largest or smallest int: a range that ends there has no bound on that side. *)
Theorem C48_saturated_refuted : check VALRANGE (lit "0:2147483647") (lit "2147483648") = Ok true /\ check VALRANGE (lit "0:2147483646") (lit "2147483648") = Ok false /\
  check VALRANGE (lit "-2147483648:0") (lit "-9999999999999") = Ok true /\ check VALRANGE (lit "-2147483647:0") (lit "-2147483648") = Ok false.
Proof. repeat split; vm_compute; reflexivity. Qed.
Print Assumptions C48_saturated_refuted.
(** Alternatives without descriptions are rejected, text in descriptions is accepted. *)
Theorem C48_choice_refuted :
  check CHOICE (lit "a,b") (lit "a") = Ok false /\ check CHOICE (lit "a,b") (lit "a,b") = Ok true /\
  check CHOICE (lit "1|one, two,3|three") (lit " two,3") = Ok true.
Proof. repeat split; vm_compute; reflexivity. Qed.
(** In lists with ports, bad ports pass and good ones fail. *)
Theorem C48_list_ports_refuted :
  check MIPADDRESS [] (lit "1.1.1.1:5 2.2.2.2:99999") = Ok true /\ check MIPADDRESS [] (lit "1.2.3.4 5.6.7.8:90") = Ok false.
Proof. repeat split; vm_compute; reflexivity. Qed.
(** Only the first of several ranges counts. *)
Theorem C48_ranges_refuted : check VALRANGE (lit "0:5,10:15") (lit "12") = Ok false.
Proof. vm_compute. reflexivity. Qed.
(** A blank port, and an unknown name, read what was never set. *)
Theorem C48_unset_refuted R F S name val vv : (declared S name PORT vv /\ blank val) \/ S name = None -> isValidValue R F S name val = UB.
Proof.
  intros [[D B]|D]; unfold isValidValue; rewrite D; [|reflexivity]. cbn [optional andb base_valid]. unfold valid_port. rewrite read_int_blank by exact B. reflexivity.
Qed.

Example C48_ex :
  check IPADDRESS [] (lit "255.0.10.1") = Ok true /\ check IPADDRESS [] (lit "256.0.10.1") = Ok false /\ check IPADDRESS [] (lit "1.02.3.4") = Ok false /\
  check CIDR_OPT [] [] = Ok true /\ check CIDR [] (lit "192.168.0.0/16") = Ok true /\ check CIDR [] (lit "192.168.0.0/33") = Ok false /\
  check CHOICE (lit "850|GSM850,900|PGSM900") (lit "900") = Ok true /\ check CHOICE (lit "850|GSM850,900|PGSM900") (lit "PGSM900") = Ok false /\
  check VALRANGE (lit "-5:10(2)") (lit "-3") = Ok true /\ check VALRANGE (lit "-5:10(2)") (lit "11") = Ok false /\
  check HOSTANDPORT [] (lit "my-host.org:80") = Ok true /\ check HOSTANDPORT [] (lit "my host:80") = Ok false /\
  check MIPADDRESS [] (lit "1.1.1.1 8.8.8.8") = Ok true /\ check MIPADDRESS [] (lit "1.1.1.1 8.8.8") = Ok false /\
  check FILEPATH [] (lit "/var/run/x.sock") = Ok true /\ check FILEPATH [] (lit "/a b") = Ok false.
Proof. repeat split; vm_compute; reflexivity. Qed.
Print Assumptions C48_boolean.
Print Assumptions C48_optional.
Print Assumptions C48_regex.
Print Assumptions C48_string.
Print Assumptions C48_choice.
Print Assumptions C48_choice_undescribed.
Print Assumptions C48_address.
Print Assumptions C48_cidr.
Print Assumptions C48_host_and_port.
Print Assumptions C48_address_and_port.
Print Assumptions C48_address_list.
Print Assumptions C48_port.
Print Assumptions C48_file_path.
Print Assumptions C48_range.
Print Assumptions C48_delimiter_refuted.
Print Assumptions C48_trailing_refuted.
Print Assumptions C48_choice_refuted.
Print Assumptions C48_list_ports_refuted.
Print Assumptions C48_ranges_refuted.
Print Assumptions C48_unset_refuted.
