(** C104: values that pass validation are read as what was validated. *)
From Verif Require Import Base BaseFacts UtilsModel UtilsSpec UtilsProofs UtilsProofs2 SqlModel SqlProofs ConfigModel ConfigSpec ConfigProofs NumProofs ConfigProps
  ValidModel ValidSpec ValidProofs ValidProps SchemaModel SchemaSpec SchemaProofs SchemaProps KvModel LoggerModel LoggerSpec LoggerProps.
Local Open Scope Z_scope.

(** A number written with a zero in front of other digits. *)
Definition leading_zero (val : list Z) : Prop :=
  exists ws sign c t, val = ws ++ sign ++ 48 :: c :: t /\ blank ws /\ is_sign sign /\ 48 <= c <= 57.
(** A number written with 0x in front. *)
Definition hex_prefix (val : list Z) : Prop :=
  exists ws sign c t, val = ws ++ sign ++ 48 :: c :: t /\ blank ws /\ is_sign sign /\ (c = 120 \/ c = 88).

Lemma decimal_digit d c : d < 10 -> char_of_digit d c -> 48 <= c <= 57 /\ c = 48 + d.
Proof. intros L H. unfold char_of_digit in H. lia. Qed.

(** The number validation sees is the number getNum reads. *)
Theorem C104_number val z : leading_number val z -> no_nul val -> - 2 ^ 63 <= z < 2 ^ 63 -> ~ leading_zero val -> ~ hex_prefix val -> getNum (Some val) = Some z.
Proof.
  intros H N B Z0 X0. destruct H as [ws sign ds s rest W G D NE R|ws sign rest W G R C].
  - destruct ds as [|d ds]; [contradiction NE; reflexivity|]. destruct s as [|c s]; [inversion D|]. assert (D' := D). inversion D as [|? ? ? ? [Ld Hd] Dt]; subst.
    destruct (Z.eq_dec d 0) as [->|Nd].
    + destruct (decimal_digit 0 c ltac:(lia) Hd) as [_ ->]. change (48 + 0) with 48 in *.
      assert (ds = [] /\ s = []) as [-> ->].
      { inversion Dt as [|d2 c2 ? ? [L2 H2] D2]; subst; [split; reflexivity|]. exfalso. apply Z0. exists ws, sign, c2, (l' ++ rest). repeat split; try assumption; apply (decimal_digit d2 c2 L2 H2). }
      cbn [app] in *. assert (E := C46_octal ws sign [] [] rest W G ltac:(exact N) ltac:(constructor)). cbn [app] in E. rewrite E.
      * f_equal. cbn. destruct sign as [|a [|? ?]]; reflexivity || (destruct a as [|[]|]; reflexivity || idtac). all: destruct G as [G|[G|G]]; try discriminate G; injection G as ->; reflexivity.
      * destruct rest as [|c t]; [exact I|]. intros d Hd'. apply R. lia.
      * intros _. destruct rest as [|c [|h t]]; try exact I. intros Hx. exfalso. apply X0. exists ws, sign, c, (h :: t). repeat split; assumption.
    + rewrite (C46_decimal ws sign d ds (c :: s) rest W G N D' Nd R). f_equal. revert B. generalize (sign_of sign * positional 10 (d :: ds)). intros q B. unfold saturate. destruct (Z.ltb_spec q (- 2 ^ 63)); [lia|]. destruct (Z.ltb_spec q (2 ^ 63)); lia.
  - apply C46_no_number; try assumption. intros E. destruct (C E) as (c & t & -> & A). exact A.
Qed.
Print Assumptions C104_number.

(** Ranges of integers: an accepted value is read as a number of the range. *)
Theorem C104_range R F S name smin smax steps lo hi val : declared S name VALRANGE (smin ++ 58 :: smax ++ steps) ->
  free_of (lit "(:.") smin -> free_of (lit "(,:.") smax -> steps = [] \/ (exists t, steps = 40 :: t /\ free_of (lit ".") t) ->
  Z.of_nat (length (smin ++ 58 :: smax ++ steps)) < 2 ^ 31 ->
  leading_number smin lo -> leading_number smax hi -> - 2 ^ 31 < lo -> hi < 2 ^ 31 - 1 -> lo < 2 ^ 31 - 1 -> - 2 ^ 31 < hi -> no_nul val ->
  isValidValue R F S name val = Ok true -> ~ leading_zero val -> exists z, getNum (Some val) = Some z /\ lo <= z <= hi.
Proof.
  intros D Hm Hx Hs L Nlo Nhi B1 B2 B3 B4 N V Z0. destruct (C48_range R F S name smin smax steps lo hi val D Hm Hx Hs L Nlo Nhi B1 B2 B3 B4 N) as (b & E & I). rewrite V in E. apply Ok_inj in E. subst b.
  destruct (proj1 I eq_refl) as (_ & C & z & Nz & B). exists z. split; [|exact B]. apply C104_number; try assumption; [lia|].
  intros (ws & sign & c & t & -> & _ & _ & K). rewrite Forall_forall in C. assert (Q := C c ltac:(rewrite !in_app_iff; right; right; right; left; reflexivity)). cbn beta in Q. lia.
Qed.
Print Assumptions C104_range.
(** Ports. *)
Theorem C104_port R F S name vv val : declared S name PORT vv -> ~ blank val -> no_nul val -> isValidValue R F S name val = Ok true -> ~ leading_zero val ->
  exists z, getNum (Some val) = Some z /\ 1 <= z <= 65535.
Proof.
  intros D B N V Z0. destruct (C48_port R F S name vv val D B) as (b & E & I). rewrite V in E. apply Ok_inj in E. subst b. destruct (proj1 I eq_refl) as (z & Nz & Bz).
  exists z. split; [|exact Bz]. apply C104_number; try assumption; [lia|]. intros X.
  assert (leading_number val 0).
  { destruct X as (ws & sign & c & t & -> & W & G & K). assert (Q := ln_digits ws sign [0] [48] (c :: t) W G). cbn [app] in Q.
    replace 0 with (sign_of sign * positional 10 [0]) by (destruct G as [->|[->| ->]]; reflexivity). apply Q; [repeat constructor; unfold char_of_digit; lia|discriminate|]. intros d Hd Hc. apply decimal_digit in Hc; [lia|exact Hd]. }
  pose proof (read_int_number val z Nz) as A. rewrite (read_int_number val 0 H) in A. injection A as A. unfold clamp_int in A. lia.
Qed.
Print Assumptions C104_port.
(** Booleans. *)
Theorem C104_boolean R F S name vv val : declared S name BOOLEAN vv -> isValidValue R F S name val = Ok true ->
  val = lit "0" /\ getBool (Some val) = Some false \/ val = lit "1" /\ getBool (Some val) = Some true.
Proof.
  intros D V. destruct (C48_boolean R F S name vv val D) as (b & E & I). rewrite V in E. apply Ok_inj in E. subst b. destruct (proj1 I eq_refl) as [->| ->]; [left|right]; split; reflexivity.
Qed.
Print Assumptions C104_boolean.

(** What the schema of a table says about a name. *)
Definition types_of (m : keymap) (name : list Z) : option (ktype * list Z) := option_map (fun v => (ktyp v, kvalid v)) (mfind m name).
Lemma own_key w k v : mfind builtin k = Some v -> mfind (make_schema w) k = Some v.
Proof. intros H. unfold make_schema. rewrite mfind_insert, H. reflexivity. Qed.

(** The keys of the library, whatever the program adds to the schema: which values pass for them. *)
Theorem C104_tries R F w val : no_nul val -> decides (isValidValue R F (types_of (make_schema w)) (lit "Control.NumSQLTries") val)
  (val <> [] /\ Forall (fun c => 48 <= c <= 57 \/ c = 45) val /\ exists z, leading_number val z /\ 1 <= z <= 10).
Proof.
  intros N. apply (C48_range R F _ (lit "Control.NumSQLTries") (lit "1") (lit "10") [] 1 10 val); try exact N; try lia.
  - unfold declared, types_of. rewrite (own_key w _ key_tries) by (vm_compute; reflexivity). reflexivity.
  - intros c H K. vm_compute in H, K. lia.
  - intros c H K. vm_compute in H, K. lia.
  - left. reflexivity.
  - vm_compute. reflexivity.
  - apply (ln_digits [] [] [1] [49] []); [constructor|left; reflexivity| |discriminate|exact I]. repeat constructor; unfold char_of_digit; lia.
  - apply (ln_digits [] [] [1; 0] [49; 48] []); [constructor|left; reflexivity| |discriminate|exact I]. repeat constructor; unfold char_of_digit; lia.
Qed.
Print Assumptions C104_tries.
Theorem C104_alarms R F w val : no_nul val -> decides (isValidValue R F (types_of (make_schema w)) (lit "Log.Alarms.Max") val)
  (val <> [] /\ Forall (fun c => 48 <= c <= 57 \/ c = 45) val /\ exists z, leading_number val z /\ 10 <= z <= 20).
Proof.
  intros N. apply (C48_range R F _ (lit "Log.Alarms.Max") (lit "10") (lit "20") [] 10 20 val); try exact N; try lia.
  - unfold declared, types_of. rewrite (own_key w _ key_alarms) by (vm_compute; reflexivity). reflexivity.
  - intros c H K. vm_compute in H, K. lia.
  - intros c H K. vm_compute in H, K. lia.
  - left. reflexivity.
  - vm_compute. reflexivity.
  - apply (ln_digits [] [] [1; 0] [49; 48] []); [constructor|left; reflexivity| |discriminate|exact I]. repeat constructor; unfold char_of_digit; lia.
  - apply (ln_digits [] [] [2; 0] [50; 48] []); [constructor|left; reflexivity| |discriminate|exact I]. repeat constructor; unfold char_of_digit; lia.
Qed.
Print Assumptions C104_alarms.
Theorem C104_file R F w val : no_nul val -> decides (isValidValue R F (types_of (make_schema w)) (lit "Log.File") val) (val = [] \/ file_path val).
Proof.
  intros N. assert (D : declared (types_of (make_schema w)) (lit "Log.File") FILEPATH_OPT []) by (unfold declared, types_of; rewrite (own_key w _ key_file) by (vm_compute; reflexivity); reflexivity).
  destruct (C48_optional R F _ (fun _ => Some (FILEPATH, [])) (lit "Log.File") FILEPATH_OPT [] val ltac:(discriminate) D eq_refl) as [A B].
  destruct val as [|c val]; [exists true; split; [exact A|split; [intros _; left; reflexivity|reflexivity]]|].
  destruct (C48_file_path R F (fun _ => Some (FILEPATH, [])) (lit "Log.File") [] (c :: val) eq_refl N) as (b & E & I).
  exists b. split; [rewrite B by discriminate; exact E|]. rewrite I. split; [intros H; right; exact H|intros [H|H]; [discriminate H|exact H]].
Qed.
Print Assumptions C104_file.
(** The levels that pass for Log.Level, each with the number the logger takes it for. *)
Definition offered : list (list Z) := [lit "EMERG"; lit "ALERT"; lit "CRIT"; lit "ERR"; lit "WARNING"; lit "NOTICE"; lit "INFO"; lit "DEBUG"].
Fixpoint cut (c : Z) (s w : list Z) : list (list Z) :=
  match s with [] => [w] | x :: t => if x =? c then w :: cut c t [] else cut c t (w ++ [x]) end.
Definition choices (s : list Z) : list (list Z * list Z) :=
  map (fun w => match cut 124 w [] with [a; b] => (a, b) | _ => ([], []) end) (cut 44 s []).
Theorem C104_level R F w val : decides (isValidValue R F (types_of (make_schema w)) (lit "Log.Level") val) (In val offered) /\
  forall i, nth_error offered i = Some val -> levelStringToInt val = Z.of_nat i.
Proof.
  split.
  - apply (C48_choice R F _ (lit "Log.Level") (choices (kvalid key_level)) val).
    + unfold declared, types_of. rewrite (own_key w _ key_level) by (vm_compute; reflexivity). vm_compute. reflexivity.
    + vm_compute. discriminate.
    + assert (Q : forallb (fun e => forallb (fun c => negb (existsb (Z.eqb c) (fst e ++ snd e))) (lit ",|")) (choices (kvalid key_level)) = true) by (vm_compute; reflexivity).
      rewrite forallb_forall in Q. apply Forall_forall. intros e He. specialize (Q e He). rewrite forallb_forall in Q.
      split; intros c Hc K; specialize (Q c Hc); apply negb_true_iff in Q; rewrite <- not_true_iff_false in Q; apply Q; apply existsb_exists; exists c; rewrite Z.eqb_refl; (split; [apply in_app_iff; tauto|reflexivity]).
    + vm_compute. reflexivity.
  - intros i H. unfold offered in H. do 8 (destruct i as [|i]; [injection H as <-; vm_compute; reflexivity|]). destruct i; discriminate H.
Qed.
Print Assumptions C104_level.
(** The defaults of the library's keys pass; none of the keys is static or has a scope. *)
Theorem C104_defaults R F w k v : In (k, v) builtin ->
  isValidValue R F (types_of (make_schema w)) k (kdefault v) = Ok true /\ mfind (make_schema w) k = Some v /\
  kname v = k /\ kstatic v = false /\ kscope v = 0 /\ In (k, kdefault v, kunits v, kvis v, kdesc v)
    [(lit "Control.NumSQLTries", lit "3", lit "attempts", DEVELOPER, lit "Number of times to retry SQL queries before declaring a database access failure.");
     (lit "Log.Alarms.Max", lit "20", lit "alarms", CUSTOMER, lit "Maximum number of alarms to remember inside the application.");
     (lit "Log.File", [], [], DEVELOPER, lit "Path to use for textfile based logging.  By default, this feature is disabled.  To enable, specify an absolute path to the file you wish to use, eg: /tmp/my-debug.log.  To disable again, execute ""unconfig Log.File"".");
     (lit "Log.Level", lit "NOTICE", [], CUSTOMER, lit "Default logging level when no other level is defined for a file.")].
Proof.
  intros H. assert (M : mfind (make_schema w) k = Some v) by (apply own_key, mfind_iff; [exact builtin_ascending|exact H]).
  assert (C : k = lit "Control.NumSQLTries" /\ v = key_tries \/ k = lit "Log.Alarms.Max" /\ v = key_alarms \/ k = lit "Log.File" /\ v = key_file \/ k = lit "Log.Level" /\ v = key_level).
  { change builtin with [(lit "Control.NumSQLTries", key_tries); (lit "Log.Alarms.Max", key_alarms); (lit "Log.File", key_file); (lit "Log.Level", key_level)] in H.
    repeat (destruct H as [H|H]; [injection H as <- <-; tauto|]). destruct H. }
  split; [|split; [exact M|]].
  - unfold isValidValue, types_of. rewrite M. destruct C as [[-> ->]|[[-> ->]|[[-> ->]|[-> ->]]]]; vm_compute; reflexivity.
  - destruct C as [[-> ->]|[[-> ->]|[[-> ->]|[-> ->]]]]; (split; [reflexivity|]; split; [reflexivity|]; split; [reflexivity|]); cbn [In]; tauto.
Qed.
Print Assumptions C104_defaults.

(** From set to getNum: what passes for the number of alarms is, written to the table and read
    later, a number from 10 to 20, and the logger keeps so many alarms. *)
Theorem C104_alarms_kept R F own S w l1 l2 t val texts : isValidValue R F (types_of (make_schema own)) (lit "Log.Alarms.Max") val = Ok true -> no_nul val -> ~ leading_zero val ->
  (forall t, tcache (tabs w t) = []) -> Forall (plain_event S) l1 -> Forall (plain_event S) l2 ->
  (forall d text, S (lit "Log.Alarms.Max") = Some (d, text) -> quote_free 39 text) -> Forall (fun e => ~ writes t (lit "Log.Alarms.Max") e) l2 ->
  exists v n, last (fst (ConfigModel.crun S w (l1 ++ ESet t (lit "Log.Alarms.Max") val true :: l2 ++ [EGet t (lit "Log.Alarms.Max") true]))) ONone = OVal v /\
    getNum v = Some n /\ 10 <= n <= 20 /\ add_all (map (fun s => (s, n)) texts) = last_n (Z.to_nat n) texts.
Proof.
  intros V N Z0 E P1 P2 Q NW. destruct (C104_alarms R F own val N) as (b & X & I). rewrite V in X. apply Ok_inj in X. subst b. destruct (proj1 I eq_refl) as (_ & C & z & Nz & B).
  exists (Some val), z. split; [|split; [|split; [exact B|apply C53_last_alarms; lia]]].
  - apply C44_read_your_writes; try assumption.
    + split; [split; intros K; vm_compute in K; lia|]. split; [|exact Q]. rewrite Forall_forall in C. split; intros K; apply C in K; lia.
    + split; [split; intros K; vm_compute in K; lia|]. split; [|reflexivity]. intros K. vm_compute in K. intuition discriminate.
  - apply C104_number; try assumption; [lia|]. intros (ws & sign & c & u & -> & _ & _ & K). rewrite Forall_forall in C. assert (A := C c ltac:(rewrite !in_app_iff; right; right; right; left; reflexivity)). cbn beta in A. lia.
Qed.
Print Assumptions C104_alarms_kept.

(** ** Defects *)
(** Validation reads decimal, getNum octal behind a zero: values in range are read as values out of it. *)
Theorem C104_octal_refuted R F w :
  isValidValue R F (types_of (make_schema w)) (lit "Log.Alarms.Max") (lit "010") = Ok true /\ getNum (Some (lit "010")) = Some 8 /\
  isValidValue R F (types_of (make_schema w)) (lit "Control.NumSQLTries") (lit "08") = Ok true /\ getNum (Some (lit "08")) = Some 0 /\
  check PORT [] (lit "080") = Ok true /\ getNum (Some (lit "080")) = Some 0.
Proof.
  unfold isValidValue, types_of. rewrite (own_key w (lit "Log.Alarms.Max") key_alarms) by (vm_compute; reflexivity). rewrite (own_key w (lit "Control.NumSQLTries") key_tries) by (vm_compute; reflexivity).
  repeat split; vm_compute; reflexivity.
Qed.
Print Assumptions C104_octal_refuted.
(** Hexadecimal numbers are read but never pass. *)
Theorem C104_hex_refuted R F w : isValidValue R F (types_of (make_schema w)) (lit "Log.Alarms.Max") (lit "0xF") = Ok false /\ getNum (Some (lit "0xF")) = Some 15.
Proof.
  unfold isValidValue, types_of. rewrite (own_key w (lit "Log.Alarms.Max") key_alarms) by (vm_compute; reflexivity). split; vm_compute; reflexivity.
Qed.
Print Assumptions C104_hex_refuted.
(** Five of the thirteen names the logger knows do not pass for Log.Level. *)
Theorem C104_names_refuted R F w val : In val (map fst level_table) ->
  isValidValue R F (types_of (make_schema w)) (lit "Log.Level") val = Ok false <-> In val [lit "EMERGENCY"; lit "CRITICAL"; lit "ERROR"; lit "WARN"; lit "INFORMATION"].
Proof.
  intros K. destruct (proj1 (C104_level R F w val)) as (b & E & I). rewrite E. split.
  - intros H. apply Ok_inj in H. subst b. unfold level_table in K. cbn [map fst In] in K. assert (NO : ~ In val offered) by (intros Q; apply I in Q; discriminate Q). unfold offered in NO. cbn [In] in *. tauto.
  - intros H. destruct b; [|reflexivity]. exfalso. pose proof (proj1 I eq_refl) as Q. clear -H Q. unfold offered in Q. cbn [In] in H, Q. repeat (destruct H as [<-|H]; [intuition discriminate|]). destruct H.
Qed.
Print Assumptions C104_names_refuted.

Example C104_ex :
  check VALRANGE (lit "-5:70(5)") (lit "-3") = Ok true /\ getNum (Some (lit "-3")) = Some (-3) /\ check VALRANGE (lit "0:10") (lit "7-2") = Ok true /\ getNum (Some (lit "7-2")) = Some 7 /\
  check PORT [] (lit " +8080 tcp") = Ok true /\ getNum (Some (lit " +8080 tcp")) = Some 8080 /\ check VALRANGE (lit "0:1") (lit "0") = Ok true /\
  ~ leading_zero (lit "0") /\ leading_zero (lit "-007") /\ levelStringToInt (lit "WARNING") = 4.
Proof.
  repeat split; try (vm_compute; reflexivity).
  - intros (ws & sign & c & t & E & W & G & _). destruct ws as [|x ws]; [|injection E as <- E; inversion W; discriminate]. destruct G as [->|[->| ->]]; discriminate E.
  - exists [], [45], 48, [55]. repeat split; try lia; [constructor|right; right; reflexivity].
Qed.
