(** C87: lookups by number and by text. *)
From Coq Require Import Lia.
From Verif Require Import Base BaseFacts UtilsModel UtilsSpec UtilsProps SqlModel SqlProofs ConfigModel ConfigSpec ConfigProofs NumProofs RowModel.
Local Open Scope Z_scope.

(** ** What a user expects *)
Definition reserved : list (list Z) := [lit "SELECT"; lit "FROM"; lit "WHERE"; lit "OR"].
(** Names: letters, digits, underscores, not beginning with a digit. *)
Definition plain_name (n : list Z) : Prop :=
  Forall (fun c => wordchar c = true) n /\ match n with c :: _ => c < 48 \/ 57 < c | [] => False end /\ ~ In (upper n) reserved.
(** Column number [i] of the table, called [n] in any case. *)
Definition is_column (T : table) (n : list Z) (i : nat) (a : affinity) : Prop :=
  plain_name n /\ exists m, nth_error (cols T) i = Some (m, a) /\ upper m = upper n.
(** What a column of each type can hold. *)
Definition looks_like (s : list Z) (z : Z) : Prop :=
  exists w1 sign ds t w2, s = w1 ++ sign ++ t ++ w2 /\ Forall (fun c => isspace c = true) w1 /\ Forall (fun c => isspace c = true) w2 /\ is_sign sign /\
    ds <> [] /\ digit_string 10 ds t /\ z = sign_of sign * positional 10 ds /\ - 2 ^ 63 <= z < 2 ^ 63.
Definition no_number (s : list Z) : Prop :=
  (forall c, In c s -> c < 48 \/ 57 < c) \/ exists c, In c s /\ (c < 48 \/ 57 < c) /\ isspace c = false /\ ~ In c (lit "+-.eE").
Definition may_hold (a : affinity) (c : cell) : Prop :=
  match a, c with
  | ATextual, Int _ => False
  | AInteger, Text s => no_number s
  | _, Int z => - 2 ^ 63 <= z < 2 ^ 63
  | _, _ => True
  end.
Definition good_table (T : table) : Prop :=
  plain_name (rname T) /\ NoDup (map (fun c => upper (fst c)) (cols T)) /\ Forall (fun row => Forall2 may_hold (map snd (cols T)) row) (data T).
(** A key [x] (a number or a text) means the cell [c] in a column of type [a]. *)
Definition means (a : affinity) (x c : cell) : Prop :=
  match a, x, c with
  | ATextual, Int n, Text s => s = sprintf_ld n
  | AInteger, Text t, Int z => looks_like t z
  | _, Int n, Int z => n = z
  | _, Text t, Text s => s = t
  | _, _, _ => False
  end.
Definition key_ok (a : affinity) (x : cell) : Prop :=
  match x with Int n => 0 <= n < 2 ^ 32 | Text t => a = AInteger -> (exists z, looks_like t z) \/ no_number t | Null => False end.
(** The rows whose cell [k] is meant, in order. *)
Inductive picks (a : affinity) (x : cell) (k : nat) : list (list cell) -> list (list cell) -> Prop :=
| PickNone : picks a x k [] []
| PickThis row d r : means a x (nth k row Null) -> picks a x k d r -> picks a x k (row :: d) (row :: r)
| PickOther row d r : ~ means a x (nth k row Null) -> picks a x k d r -> picks a x k (row :: d) r.
(** Column names separated by commas. *)
Inductive lists (T : table) : list Z -> list nat -> Prop :=
| ListOne n i a : is_column T n i a -> lists T n [i]
| ListMore n i a blanks s l : is_column T n i a -> Forall (fun c => c = 32) blanks -> lists T s l -> lists T (n ++ lit "," ++ blanks ++ s) (i :: l).
Inductive asks (T : table) : list Z -> list nat -> Prop :=
| AskAll : asks T (lit "*") (seq 0 (length (cols T)))
| AskList s l : lists T s l -> asks T s l.

(** ** Reading the statement *)
Definition cons_tok (k : tok) (r : option (list tok)) : option (list tok) := match r with Some l => Some (k :: l) | None => None end.
Lemma lexrun_word n : forall a, Forall (fun c => wordchar c = true) n -> lexrun (LWord a) n = Some ([], LWord (rev n ++ a)).
Proof.
  induction n as [|c n IH]; intros a H; [reflexivity|]. inversion H as [|? ? C H']. cbn [lexrun lex_step]. rewrite C, IH by exact H'. cbn [rev]. rewrite <- app_assoc. reflexivity.
Qed.
Lemma word_start c : wordchar c = true -> start_tok c = Some ([], LWord [c]).
Proof. intros H. unfold start_tok. rewrite H. destruct (isspace c) eqn:E; [|reflexivity]. unfold isspace, wordchar in *. lia. Qed.
Lemma lex_word n c rest : Forall (fun c => wordchar c = true) n -> n <> [] -> wordchar c = false -> lex_ LStart (n ++ c :: rest) = cons_tok (Word n) (lex_ LStart (c :: rest)).
Proof.
  intros H NE C. destruct n as [|d n]; [contradiction NE; reflexivity|]. inversion H as [|? ? D H']. cbn [app]. rewrite (lex_cons LStart d _ [] (LWord [d])) by (cbn [lex_step]; apply word_start, D).
  rewrite lex_app, lexrun_word by exact H'. cbn [lex_ lex_step]. rewrite C. rewrite rev_app_distr, rev_involutive. cbn [rev app]. destruct (start_tok c) as [[tk st]|]; [|reflexivity]. cbn [emit]. destruct (lex_ st rest); reflexivity.
Qed.
Lemma lex_word_end n : Forall (fun c => wordchar c = true) n -> n <> [] -> lex_ LStart n = Some [Word n].
Proof.
  intros H NE. destruct n as [|d n]; [contradiction NE; reflexivity|]. inversion H as [|? ? D H']. rewrite (lex_cons LStart d _ [] (LWord [d])) by (cbn [lex_step]; apply word_start, D).
  rewrite <- (app_nil_r n) at 1. rewrite lex_app, lexrun_word by exact H'. cbn [lex_ lex_end]. rewrite rev_app_distr, rev_involutive. reflexivity.
Qed.
Lemma lex_space rest : lex_ LStart (32 :: rest) = lex_ LStart rest.
Proof. rewrite (lex_cons LStart 32 rest [] LStart eq_refl). destruct (lex_ LStart rest); reflexivity. Qed.
Lemma lex_blanks b rest : Forall (fun c => c = 32) b -> lex_ LStart (b ++ rest) = lex_ LStart rest.
Proof. intros H. induction H as [|c b -> H IH]; [reflexivity|]. cbn [app]. rewrite lex_space. exact IH. Qed.
Lemma lex_punct c rest : In c [40; 41; 42; 44; 59] -> lex_ LStart (c :: rest) = cons_tok (Punct c) (lex_ LStart rest).
Proof. cbn [In]. intros H. rewrite (lex_cons LStart c rest [Punct c] LStart); [destruct (lex_ LStart rest); reflexivity|]. repeat (destruct H as [<-|H]; [reflexivity|]). destruct H. Qed.
Lemma lex_eqeq rest : lex_ LStart (61 :: 61 :: 32 :: rest) = cons_tok EqEq (lex_ LStart rest).
Proof. rewrite (lex_cons LStart 61 _ [] LEq eq_refl). rewrite (lex_cons LEq 61 _ [EqEq] LStart eq_refl). rewrite lex_space. destruct (lex_ LStart rest); reflexivity. Qed.
Lemma plain_nonempty n : plain_name n -> n <> [].
Proof. intros (_ & H & _) ->. exact H. Qed.
Lemma plain_not n w : plain_name n -> In w reserved -> weqb n w = false.
Proof.
  intros (_ & _ & H) I. apply weqb_neq. intros ->. apply H. replace (upper w) with w; [exact I|]. unfold reserved in I. cbn [In] in I. repeat (destruct I as [<-|I]; [reflexivity|]). destruct I.
Qed.
Lemma word_no_digits n : plain_name n -> forallb is_digit n = false.
Proof. intros (_ & H & _). destruct n as [|c n]; [destruct H|]. cbn [forallb]. replace (is_digit c) with false by (unfold is_digit; lia). reflexivity. Qed.
Lemma column_at n : forall l i m a, nth_error l i = Some (m, a) -> upper m = upper n -> NoDup (map (fun c => upper (fst c)) l) -> column n l = Some (i, a).
Proof.
  induction l as [|[m' b] l IH]; intros i m a H U N; [destruct i; discriminate|]. cbn [column map fst] in *. inversion N as [|? ? NI N']. subst. destruct i as [|i]; cbn [nth_error] in H.
  - injection H as -> ->. rewrite U, weqb_refl. reflexivity.
  - rewrite weqb_neq; [rewrite (IH i m a H U N'); reflexivity|]. intros E. apply NI. rewrite <- E, <- U. apply nth_error_In in H. apply (in_map (fun c => upper (fst c))) in H. exact H.
Qed.
Lemma is_column_at T n i a : good_table T -> is_column T n i a -> column n (cols T) = Some (i, a).
Proof. intros (_ & N & _) (_ & m & H & U). exact (column_at n (cols T) i m a H U N). Qed.
Lemma lists_head T s l : lists T s l -> exists c t, s = c :: t /\ wordchar c = true.
Proof.
  intros H. assert (K : exists n t, s = n ++ t /\ plain_name n) by (destruct H as [n i a [P _]|n i a b s' l' [P _]]; [exists n, []; rewrite app_nil_r; auto|exists n; eexists; split; [reflexivity|exact P]]).
  destruct K as (n & t & -> & (W & Hd & _)). destruct n as [|c n]; [destruct Hd|]. inversion W. exists c, (n ++ t). split; [reflexivity|assumption].
Qed.
Lemma lex_lists T s l rest toks : good_table T -> lists T s l -> lex_ LStart rest = Some toks -> exists ts, lex_ LStart (s ++ lit " FROM " ++ rest) = Some ts /\ p_columns T ts = Some (l, toks).
Proof.
  intros G H E. induction H as [n i a C|n i a b s' l' C B H (ts & IH1 & IH2)].
  - pose proof (proj1 C) as P. exists (Word n :: Word (lit "FROM") :: toks). split.
    + change (lit " FROM " ++ rest) with (32 :: lit "FROM" ++ 32 :: rest). rewrite lex_word; [|apply P|exact (plain_nonempty _ P)|reflexivity]. rewrite lex_space. rewrite lex_word; [|repeat constructor|discriminate|reflexivity]. rewrite lex_space, E. reflexivity.
    + cbn [p_columns]. rewrite (is_column_at T n i a G C). rewrite weqb_refl. reflexivity.
  - pose proof (proj1 C) as P. exists (Word n :: Punct 44 :: ts). split.
    + change (lit ",") with [44]. rewrite <- !app_assoc. cbn [app]. rewrite lex_word; [|apply P|exact (plain_nonempty _ P)|reflexivity]. rewrite lex_punct by (right; right; right; left; reflexivity). rewrite lex_blanks by exact B. rewrite IH1. reflexivity.
    + cbn [p_columns]. rewrite (is_column_at T n i a G C). change (44 =? 44) with true. cbv iota. rewrite IH2. reflexivity.
Qed.
(** What follows the column names: the table and the condition. *)
Lemma lex_asks T cs l rest toks : good_table T -> asks T cs l -> lex_ LStart rest = Some toks ->
  exists ts, lex_ LStart (cs ++ lit " FROM " ++ rest) = Some ts /\
    (match ts with
     | Punct p :: Word f :: r => if (p =? 42) && weqb f (lit "FROM") then Some (seq 0 (length (cols T)), r) else None
     | _ => p_columns T ts
     end) = Some (l, toks).
Proof.
  intros G A E. destruct A as [|s l L].
  - exists (Punct 42 :: Word (lit "FROM") :: toks). split; [|rewrite weqb_refl; reflexivity]. change (lit "*" ++ lit " FROM " ++ rest) with (42 :: 32 :: lit "FROM" ++ 32 :: rest). rewrite lex_punct by (right; right; left; reflexivity). rewrite lex_space. rewrite lex_word; [|repeat constructor|discriminate|reflexivity]. rewrite lex_space, E. reflexivity.
  - destruct (lex_lists T s l rest toks G L E) as (ts & H1 & H2). exists ts. split; [exact H1|]. destruct ts as [|[w|w|w|p|] ts]; try exact H2; try discriminate H2.
Qed.

(** ** Comparing *)
Lemma digits_value_positional ds t : digit_string 10 ds t -> digits_value t = positional 10 ds.
Proof.
  unfold digits_value. intros D. enough (H : forall v, fold_left (fun v c => 10 * v + (c - 48)) t v = v * 10 ^ Z.of_nat (length ds) + positional 10 ds) by (rewrite H; lia).
  induction D as [|d c ds t [L C] D IH]; intros v; cbn [fold_left length positional]; [change (10 ^ Z.of_nat 0) with 1; lia|]. rewrite IH. rewrite Nat2Z.inj_succ, Z.pow_succ_r by lia. assert (c - 48 = d) by (unfold char_of_digit in C; lia). subst d. ring.
Qed.
Lemma digits_all ds t : digit_string 10 ds t -> forallb is_digit t = true.
Proof. intros D. induction D as [|d c ds t [L C] D IH]; [reflexivity|]. cbn [forallb]. rewrite IH. unfold char_of_digit in C. unfold is_digit. lia. Qed.
Lemma skip_nospace c t : isspace c = false -> skip_space (c :: t) = c :: t.
Proof. intros H. cbn [skip_space]. rewrite H. reflexivity. Qed.
Lemma skip_in c s : (isspace c = false -> In c s -> In c (skip_space s)) /\ (In c (skip_space s) -> In c s).
Proof.
  induction s as [|d s [IH1 IH2]]; [split; auto|]. cbn [skip_space]. destruct (isspace d) eqn:E; [|split; auto]. split.
  - intros H [->|K]; [congruence|auto].
  - intros K. right. auto.
Qed.
Lemma trim_in c s : (isspace c = false -> In c s -> In c (trim s)) /\ (In c (trim s) -> In c s).
Proof.
  unfold trim. split.
  - intros H K. rewrite <- in_rev. apply (proj1 (skip_in c _) H). rewrite <- in_rev. apply (proj1 (skip_in c _) H), K.
  - intros K. rewrite <- in_rev in K. apply (proj2 (skip_in c _)) in K. rewrite <- in_rev in K. exact (proj2 (skip_in c _) K).
Qed.
Lemma looks_numeric s z : looks_like s z -> numeric s = Some (Some z).
Proof.
  intros (w1 & sign & ds & t & w2 & -> & W1 & W2 & G & NE & D & -> & R).
  assert (HT : exists c t', t = c :: t' /\ is_digit c = true). { destruct D as [|d c ds t [L C] D]; [contradiction NE; reflexivity|]. exists c, t. split; [reflexivity|]. unfold char_of_digit in C. unfold is_digit. lia. }
  assert (HL : exists c t', rev t = c :: t' /\ is_digit c = true).
  { destruct HT as (c & t' & -> & _). assert (A := digits_all _ _ D). destruct (rev (c :: t')) as [|e r] eqn:E; [apply (f_equal (@length Z)) in E; rewrite rev_length in E; discriminate E|]. exists e, r. split; [reflexivity|]. rewrite forallb_forall in A. apply A. rewrite in_rev, E. left. reflexivity. }
  assert (TR : trim (w1 ++ sign ++ t ++ w2) = sign ++ t).
  { unfold trim. rewrite skip_space_app by exact W1. destruct HT as (c & t' & -> & Hc). assert (Sc : isspace c = false) by (unfold isspace, is_digit in *; lia).
    replace (skip_space (sign ++ (c :: t') ++ w2)) with (sign ++ (c :: t') ++ w2) by (destruct G as [->|[->| ->]]; cbn [app]; symmetry; apply skip_nospace; [exact Sc|reflexivity|reflexivity]).
    rewrite !rev_app_distr, <- app_assoc. rewrite skip_space_app by (apply Forall_rev; exact W2). destruct HL as (e & r & E & He). rewrite E. cbn [app]. rewrite skip_nospace by (unfold isspace, is_digit in *; lia).
    change (e :: r ++ rev sign) with ((e :: r) ++ rev sign). rewrite <- E, <- rev_app_distr, rev_involutive. reflexivity. }
  unfold numeric. rewrite TR. cbv zeta. destruct HT as (c & t' & -> & Hc). pose proof (digits_all _ _ D) as A. pose proof (digits_value_positional _ _ D) as V.
  assert (F : fits64 (sign_of sign * positional 10 ds) = true) by (unfold fits64; lia).
  destruct G as [->|[->| ->]].
  - change ([] ++ c :: t') with (c :: t'). cbv iota beta. replace (c =? 45) with false by (unfold is_digit in Hc; lia). replace (c =? 43) with false by (unfold is_digit in Hc; lia). cbv iota beta. rewrite A, V. change (sign_of []) with 1 in F |- *. rewrite F. reflexivity.
  - change ([43] ++ c :: t') with (43 :: c :: t'). cbv iota beta. change (43 =? 45) with false. change (43 =? 43) with true. cbv iota beta. rewrite A, V. change (sign_of [43]) with 1 in F |- *. rewrite F. reflexivity.
  - change ([45] ++ c :: t') with (45 :: c :: t'). cbv iota beta. change (45 =? 45) with true. cbv iota beta. rewrite A, V. change (sign_of [45]) with (-1) in F |- *. rewrite F. reflexivity.
Qed.
Lemma no_number_numeric s : no_number s -> numeric s = Some None.
Proof.
  intros H. unfold numeric. set (t := trim s). set (p := match t with c :: u => if c =? 45 then (-1, u) else if c =? 43 then (1, u) else (1, t) | [] => (1, []) end).
  assert (P : (forall c, In c (snd p) -> In c t) /\ (forall c, c <> 45 -> c <> 43 -> In c t -> In c (snd p))).
  { subst p. destruct t as [|d u]; [split; auto|]. destruct (Z.eqb_spec d 45) as [->|N1]; [|destruct (Z.eqb_spec d 43) as [->|N2]]; cbn [snd]; (split; [intros c K; first [exact K|right; exact K]|intros c C1 C2 K; first [exact K|destruct K as [K|K]; [congruence|exact K]]]). }
  destruct p as [sg u]. cbn [snd] in P. destruct P as [P1 P2].
  assert (B1 : match u with [] => false | _ => forallb is_digit u end = false).
  { destruct u as [|d u']; [reflexivity|]. destruct H as [H|(c & I & N & S & O)].
    - cbn [forallb]. assert (K : d < 48 \/ 57 < d) by (apply H; apply (proj2 (trim_in d s)); apply P1; left; reflexivity). replace (is_digit d) with false by (unfold is_digit; lia). reflexivity.
    - assert (K : In c (d :: u')). { apply P2; [intros ->; apply O; right; left; reflexivity|intros ->; apply O; left; reflexivity|]. apply (proj1 (trim_in c s)); assumption. }
      destruct (forallb is_digit (d :: u')) eqn:E; [|reflexivity]. rewrite forallb_forall in E. specialize (E c K). unfold is_digit in E. lia. }
  rewrite B1. assert (B2 : existsb is_digit s && forallb (fun c => is_digit c || isspace c || (c =? 45) || (c =? 43) || (c =? 46) || (c =? 101) || (c =? 69)) s = false); [|rewrite B2; reflexivity].
  apply andb_false_iff. destruct H as [H|(c & I & N & S & O)].
  - left. destruct (existsb is_digit s) eqn:E; [|reflexivity]. apply existsb_exists in E. destruct E as (c & I & C). specialize (H c I). unfold is_digit in C. lia.
  - right. destruct (forallb _ s) eqn:E; [|reflexivity]. rewrite forallb_forall in E. specialize (E c I). cbv beta in E. rewrite S in E. exfalso. apply O. change (lit "+-.eE") with [43; 45; 46; 101; 69]. cbn [In]. unfold is_digit in E. lia.
Qed.
Lemma equal_means a x c : key_ok a x -> may_hold a c -> exists b, equal (c, Some a) (x, None) = Some b /\ (b = true <-> means a x c).
Proof.
  intros K H. unfold equal. cbn [fst snd]. destruct a; cbn [common].
  - destruct x as [|n|t]; [destruct K| |]; (destruct c as [|z|s]; [|destruct H|]); cbn [applied same means]; eexists; (split; [reflexivity|]); rewrite ?weqb_iff; try (split; [discriminate|intros []]); reflexivity.
  - assert (HX : exists x', applied AInteger x = Some x' /\ match x with Int n => x' = Int n | Text t => (exists z, looks_like t z /\ x' = Int z) \/ (no_number t /\ x' = Text t) | Null => False end).
    { destruct x as [|n|t]; [destruct K|exists (Int n); auto|]. cbn [applied]. destruct (K eq_refl) as [[z L]|N]; [rewrite (looks_numeric _ _ L); eexists; split; [reflexivity|left; exists z; auto]|rewrite (no_number_numeric _ N); eexists; split; [reflexivity|right; auto]]. }
    destruct HX as (x' & -> & HX). destruct c as [|z|s]; cbn [applied].
    + exists (same Null x'). split; [reflexivity|]. cbn [same]. split; [discriminate|]. destruct x; intros [].
    + exists (same (Int z) x'). split; [reflexivity|]. destruct x as [|n|t]; [destruct HX|subst x'; cbn [same means]; lia|]. cbn [means]. destruct HX as [(z' & L & ->)|[N ->]]; cbn [same].
      * rewrite Z.eqb_eq. split; [intros ->; exact L|]. intros L'. apply looks_numeric in L, L'. congruence.
      * split; [discriminate|]. intros L. apply looks_numeric in L. rewrite (no_number_numeric _ N) in L. discriminate L.
    + cbn [may_hold] in H. rewrite (no_number_numeric _ H). exists (same (Text s) x'). split; [reflexivity|]. destruct x as [|n|t]; [destruct HX|subst x'; cbn [same means]; split; [discriminate|intros []]|]. cbn [means]. destruct HX as [(z' & L & ->)|[N ->]]; cbn [same].
      * split; [discriminate|]. intros ->. apply looks_numeric in L. rewrite (no_number_numeric _ H) in L. discriminate L.
      * apply weqb_iff.
  - destruct x as [|n|t]; [destruct K| |]; destruct c as [|z|s]; cbn [applied same means]; eexists; (split; [reflexivity|]); rewrite ?weqb_iff; try (split; [discriminate|intros []]); try reflexivity; lia.
Qed.
Lemma selected_picks T kn k a v x d : good_table T -> is_column T kn k a -> key_ok a x -> (forall row, in_row T row v = Some (x, None)) ->
  Forall (fun row => Forall2 may_hold (map snd (cols T)) row) d -> exists rs, picks a x k d rs /\ selected T [(VWord kn, v)] d = Some rs.
Proof.
  intros G C K V H. induction H as [|row d R H (rs & P & S)]; [exists []; split; [constructor|reflexivity]|].
  destruct C as (PN & m & NE & U). assert (HC : exists c, nth_error row k = Some c /\ may_hold a c).
  { clear -R NE. revert k NE. generalize dependent row. generalize (cols T). intros l row R. remember (map snd l) as as_ eqn:E. revert l E. induction R as [|b c bs row M R IH]; intros l E k NE.
    - destruct l; [|discriminate E]. destruct k; discriminate NE.
    - destruct l as [|[m' b'] l]; [discriminate E|]. cbn [map snd] in E. injection E as -> ->. destruct k as [|k]; cbn [nth_error] in *; [injection NE as -> ->; exists c; auto|exact (IH l eq_refl k NE)]. }
  destruct HC as (c & NC & MC). destruct (equal_means a x c K MC) as (b & Eq & Hb).
  assert (IR : in_row T row (VWord kn) = Some (c, Some a)). { unfold in_row. rewrite (word_no_digits _ PN). rewrite (column_at kn (cols T) k m a NE U (proj1 (proj2 G))). rewrite NC. reflexivity. }
  cbn [selected holds]. rewrite IR, V, Eq, S. rewrite orb_false_r. assert (NN : nth k row Null = c) by (apply nth_error_nth; exact NC). destruct b.
  - exists (row :: rs). split; [|reflexivity]. constructor; [|exact P]. rewrite NN. apply Hb. reflexivity.
  - exists rs. split; [|reflexivity]. apply PickOther; [|exact P]. rewrite NN. intros M. apply Hb in M. discriminate M.
Qed.
Lemma words_no_nul n : Forall (fun c => wordchar c = true) n -> ~ In 0 n.
Proof. intros H I. rewrite Forall_forall in H. specialize (H 0 I). discriminate H. Qed.
Lemma plain_no_nul n : plain_name n -> no_nul n.
Proof. intros (W & _). exact (words_no_nul _ W). Qed.
Lemma lists_no_nul T s l : lists T s l -> no_nul s.
Proof.
  intros H. induction H as [n i a [P _]|n i a b s l [P _] B H IH]; [exact (plain_no_nul _ P)|]. intros K. rewrite !in_app_iff in K. destruct K as [K|[K|[K|K]]]; [exact (plain_no_nul _ P K)|destruct K as [K|[]]; discriminate K| |exact (IH K)].
  rewrite Forall_forall in B. specialize (B 0 K). discriminate B.
Qed.
Lemma asks_no_nul T s l : asks T s l -> no_nul s.
Proof. intros [|s' l' H]; [intros [K|[]]; discriminate K|exact (lists_no_nul _ _ _ H)]. Qed.
Definition statement (cs t kn lt : list Z) : list Z := lit "SELECT " ++ cs ++ lit " FROM " ++ t ++ lit " WHERE " ++ kn ++ lit " == " ++ lt.
Lemma lit_no_nul s : forallb (fun c => negb (c =? 0)) (lit s) = true -> ~ In 0 (lit s).
Proof. intros H I. rewrite forallb_forall in H. specialize (H 0 I). discriminate H. Qed.
Lemma statement_no_nul cs t kn lt : no_nul cs -> no_nul t -> no_nul kn -> no_nul lt -> no_nul (statement cs t kn lt).
Proof.
  intros A B C D K. unfold statement in K. rewrite !in_app_iff in K. destruct K as [K|[K|[K|[K|[K|[K|[K|K]]]]]]]; try (exact (A K)); try (exact (B K)); try (exact (C K)); try (exact (D K)); revert K; apply lit_no_nul; reflexivity.
Qed.
Lemma select_where T cs l kn k a lt tk v x : good_table T -> asks T cs l -> is_column T kn k a -> key_ok a x -> no_nul lt -> lex_ LStart lt = Some [tk] -> val_of tk = Some v -> (forall row, in_row T row v = Some (x, None)) ->
  exists rs, picks a x k (data T) rs /\ select T (statement cs (rname T) kn lt) = Some (map (project l) rs).
Proof.
  intros G A C K N L V R. destruct (selected_picks T kn k a v x (data T) G C K R (proj2 (proj2 G))) as (rs & P & S). exists rs. split; [exact P|].
  pose proof (proj1 G) as PT. pose proof (proj1 C) as PK.
  unfold select. rewrite c_str_id by (apply statement_no_nul; [exact (asks_no_nul _ _ _ A)|exact (plain_no_nul _ PT)|exact (plain_no_nul _ PK)|exact N]).
  assert (E : lex_ LStart (rname T ++ lit " WHERE " ++ kn ++ lit " == " ++ lt) = Some [Word (rname T); Word (lit "WHERE"); Word kn; EqEq; tk]).
  { change (lit " WHERE " ++ kn ++ lit " == " ++ lt) with (32 :: lit "WHERE" ++ 32 :: kn ++ 32 :: 61 :: 61 :: 32 :: lt). rewrite lex_word; [|apply PT|exact (plain_nonempty _ PT)|reflexivity]. rewrite lex_space. rewrite lex_word; [|repeat constructor|discriminate|reflexivity]. rewrite lex_space.
    rewrite lex_word; [|apply PK|exact (plain_nonempty _ PK)|reflexivity]. rewrite lex_space, lex_eqeq, L. reflexivity. }
  destruct (lex_asks T cs l _ _ G A E) as (ts & E1 & E2). unfold lex, statement. change (lit "SELECT " ++ cs ++ lit " FROM " ++ rname T ++ lit " WHERE " ++ kn ++ lit " == " ++ lt) with (lit "SELECT" ++ 32 :: cs ++ lit " FROM " ++ rname T ++ lit " WHERE " ++ kn ++ lit " == " ++ lt).
  rewrite lex_word; [|repeat constructor|discriminate|reflexivity]. rewrite lex_space, E1. cbn [cons_tok]. rewrite weqb_refl. rewrite E2. rewrite weqb_refl, weqb_refl.
  cbn [length p_cond]. cbn [val_of]. rewrite V. rewrite S. reflexivity.
Qed.

(** ** The keys in the statement *)
Lemma num_text n : 0 <= n < 2 ^ 32 -> exists d ds, digit_string 10 (d :: ds) (sprintf_ld n) /\ positional 10 (d :: ds) = n.
Proof.
  intros R. assert (P : 10 ^ Z.of_nat 20 = 100000000000000000000) by reflexivity. unfold sprintf_ld. replace (n <? 0) with false by lia.
  destruct (dec_digits_spec 20 n ltac:(lia) ltac:(lia)) as (d & ds & D & V & _). exists d, ds. split; assumption.
Qed.
Lemma digits_words ds t : digit_string 10 ds t -> Forall (fun c => wordchar c = true) t.
Proof. intros D. induction D as [|d c ds t [L C] D IH]; constructor; [|exact IH]. unfold char_of_digit in C. unfold wordchar. lia. Qed.
Lemma key_number T n : 0 <= n < 2 ^ 32 -> no_nul (sprintf_ld n) /\ lex_ LStart (sprintf_ld n) = Some [Word (sprintf_ld n)] /\ forall row, in_row T row (VWord (sprintf_ld n)) = Some (Int n, None).
Proof.
  intros R. destruct (num_text n R) as (d & ds & D & V). pose proof (digits_words _ _ D) as W. split; [exact (words_no_nul _ W)|]. split.
  - apply lex_word_end; [exact W|]. intros E. rewrite E in D. inversion D.
  - intros row. unfold in_row. rewrite (digits_all _ _ D), (digits_value_positional _ _ D), V. replace (fits64 n) with true by (unfold fits64; lia). reflexivity.
Qed.
Lemma key_single T v : no_nul v -> ~ In 39 v -> no_nul (lit "'" ++ v ++ lit "'") /\ lex_ LStart (lit "'" ++ v ++ lit "'") = Some [Sq v] /\ forall row, in_row T row (VStr v) = Some (Text v, None).
Proof.
  intros N Q. change (lit "'") with [39]. split; [intros K; rewrite !in_app_iff in K; destruct K as [[K|[]]|[K|[K|[]]]]; [discriminate K|exact (N K)|discriminate K]|]. split; [|reflexivity].
  cbn [app]. rewrite (lex_cons LStart 39 _ [] (LSq []) eq_refl). rewrite lex_sq by exact Q. rewrite lex_sq_last. reflexivity.
Qed.
(** A key in double quotes must not be the name of a column. *)
Definition no_column (T : table) (v : list Z) : Prop := (forall m a, In (m, a) (cols T) -> upper m <> upper v) /\ ~ In (upper v) [lit "ROWID"; lit "OID"; lit "_ROWID_"].
Lemma column_none v l : (forall m a, In (m, a) l -> upper m <> upper v) -> column v l = None.
Proof.
  induction l as [|[m a] l IH]; intros H; [reflexivity|]. cbn [column]. rewrite weqb_neq by (intros E; apply (H m a); [left; reflexivity|congruence]). rewrite IH; [reflexivity|]. intros m' a' I. apply (H m' a'). right. exact I.
Qed.
Lemma key_double T v : no_nul v -> ~ In 34 v -> no_column T v -> no_nul (lit """" ++ v ++ lit """") /\ lex_ LStart (lit """" ++ v ++ lit """") = Some [Dq v] /\ forall row, in_row T row (VName v) = Some (Text v, None).
Proof.
  intros N Q [C1 C2]. change (lit """") with [34]. split; [intros K; rewrite !in_app_iff in K; destruct K as [[K|[]]|[K|[K|[]]]]; [discriminate K|exact (N K)|discriminate K]|]. split.
  - cbn [app]. rewrite (lex_cons LStart 34 _ [] (LDq []) eq_refl). rewrite lex_dq by exact Q. rewrite lex_dq_last. reflexivity.
  - intros row. unfold in_row. rewrite (column_none v (cols T) C1). destruct (existsb (weqb (upper v)) rowid_names) eqn:E; [|reflexivity]. exfalso. apply C2. apply existsb_exists in E. destruct E as (w & I & E). apply weqb_iff in E. rewrite E. exact I.
Qed.
Lemma where_number T cs l kn k a n : good_table T -> asks T cs l -> is_column T kn k a -> 0 <= n < 2 ^ 32 ->
  exists rs, picks a (Int n) k (data T) rs /\ select T (statement cs (rname T) kn (sprintf_ld n)) = Some (map (project l) rs).
Proof. intros G A C R. destruct (key_number T n R) as (N & L & I). eapply select_where; try eassumption; reflexivity. Qed.
Lemma where_single T cs l kn k a v : good_table T -> asks T cs l -> is_column T kn k a -> key_ok a (Text v) -> no_nul v -> ~ In 39 v ->
  exists rs, picks a (Text v) k (data T) rs /\ select T (statement cs (rname T) kn (lit "'" ++ v ++ lit "'")) = Some (map (project l) rs).
Proof. intros G A C K N Q. destruct (key_single T v N Q) as (N' & L & I). eapply select_where; try eassumption; reflexivity. Qed.
Lemma where_double T cs l kn k a v : good_table T -> asks T cs l -> is_column T kn k a -> key_ok a (Text v) -> no_nul v -> ~ In 34 v -> no_column T v ->
  exists rs, picks a (Text v) k (data T) rs /\ select T (statement cs (rname T) kn (lit """" ++ v ++ lit """")) = Some (map (project l) rs).
Proof. intros G A C K N Q NC. destruct (key_double T v N Q NC) as (N' & L & I). eapply select_where; try eassumption; reflexivity. Qed.

(** ** Queries *)
Definition text_length (cs t kn : list Z) (key : Z) : Z := 24 + Z.of_nat (length cs + length t + length kn) + key.
Lemma statement_length cs t kn lt : Z.of_nat (length (statement cs t kn lt)) = text_length cs t kn (Z.of_nat (length lt)).
Proof. unfold statement, text_length. rewrite !app_length. change (length (lit "SELECT ")) with 7%nat. change (length (lit " FROM ")) with 6%nat. change (length (lit " WHERE ")) with 7%nat. change (length (lit " == ")) with 4%nat. lia. Qed.
Lemma buf_whole s : no_nul s -> (length s <= 99)%nat -> c_str (vsnprintf_buf 100 s) = s.
Proof. intros N L. rewrite buf_text by exact N. apply firstn_all2. lia. Qed.
Lemma query_whole T cs t kn lt : no_nul cs -> no_nul t -> no_nul kn -> no_nul lt -> (length kn + length lt <= 89)%nat -> text_length cs t kn (Z.of_nat (length lt)) <> 199 -> text_length cs t kn (Z.of_nat (length lt)) <= 5000 ->
  sqlQuery_ T true t cs (c_str (vsnprintf_buf 100 (lit "WHERE " ++ c_str kn ++ lit " == " ++ lt))) = select T (statement cs t kn lt).
Proof.
  intros N1 N2 N3 N4 L1 L2 L3. rewrite <- statement_length in L2, L3. assert (NS := statement_no_nul cs t kn lt N1 N2 N3 N4).
  assert (NW : no_nul (lit "WHERE " ++ kn ++ lit " == " ++ lt)) by (intros K; apply NS; unfold statement; rewrite !in_app_iff in *; change (lit " WHERE ") with (32 :: lit "WHERE "); cbn [In]; tauto).
  unfold sqlQuery_, answer. rewrite (c_str_id kn N3), (c_str_id cs N1), (c_str_id t N2). rewrite buf_whole; [|exact NW|rewrite !app_length; change (length (lit "WHERE ")) with 6%nat; change (length (lit " == ")) with 4%nat; lia].
  rewrite (c_str_id _ NW). rewrite C42_format_whole; [reflexivity|exact NS|intros E; apply L2; unfold statement; change (lit " WHERE ") with (lit " " ++ lit "WHERE "); rewrite <- app_assoc; rewrite E; reflexivity|unfold statement in L3; change (lit " WHERE ") with (lit " " ++ lit "WHERE ") in L3; rewrite <- app_assoc in L3; exact L3].
Qed.
(** sqlQuery by a number: the rows with that key, in order, of each the columns asked for. *)
Theorem C87_query_u T cs l kn k a n : good_table T -> asks T cs l -> is_column T kn k a -> 0 <= n < 2 ^ 32 ->
  (length kn + length (sprintf_ld n) <= 89)%nat -> text_length cs (rname T) kn (Z.of_nat (length (sprintf_ld n))) <> 199 -> text_length cs (rname T) kn (Z.of_nat (length (sprintf_ld n))) <= 5000 ->
  exists rs, picks a (Int n) k (data T) rs /\ sqlQuery_u T true (rname T) cs kn n = Some (map (project l) rs).
Proof.
  intros G A C R L1 L2 L3. destruct (where_number T cs l kn k a n G A C R) as (rs & P & S). exists rs. split; [exact P|]. unfold sqlQuery_u, condition_u.
  rewrite query_whole; try assumption; [exact (asks_no_nul _ _ _ A)|exact (plain_no_nul _ (proj1 G))|exact (plain_no_nul _ (proj1 C))|exact (proj1 (key_number T n R))].
Qed.
Print Assumptions C87_query_u.
(** By a text without single quotes. *)
Theorem C87_query_c T cs l kn k a v : good_table T -> asks T cs l -> is_column T kn k a -> key_ok a (Text v) -> no_nul v -> ~ In 39 v ->
  (length kn + length v <= 87)%nat -> text_length cs (rname T) kn (Z.of_nat (length v) + 2) <> 199 -> text_length cs (rname T) kn (Z.of_nat (length v) + 2) <= 5000 ->
  exists rs, picks a (Text v) k (data T) rs /\ sqlQuery_c T true (rname T) cs kn v = Some (map (project l) rs).
Proof.
  intros G A C K N Q L1 L2 L3. destruct (where_single T cs l kn k a v G A C K N Q) as (rs & P & S). exists rs. split; [exact P|]. unfold sqlQuery_c, condition_c. rewrite (c_str_id v N).
  assert (LL : Z.of_nat (length (lit "'" ++ v ++ lit "'")) = Z.of_nat (length v) + 2) by (rewrite !app_length; change (length (lit "'")) with 1%nat; lia).
  replace (lit "WHERE " ++ c_str kn ++ lit " == '" ++ v ++ lit "'") with (lit "WHERE " ++ c_str kn ++ lit " == " ++ lit "'" ++ v ++ lit "'") by reflexivity.
  rewrite query_whole; rewrite ?LL; try assumption; [exact (asks_no_nul _ _ _ A)|exact (plain_no_nul _ (proj1 G))|exact (plain_no_nul _ (proj1 C))|exact (proj1 (key_single T v N Q))|lia].
Qed.
Print Assumptions C87_query_c.
(** sqlStep goes through the rows one by one. *)
Theorem C87_steps rows j : Nat.iter j sqlStep (Some rows) = Some (skipn j rows) /\ (sqlSuccess (Nat.iter j sqlStep (Some rows)) = true <-> (j < length rows)%nat).
Proof.
  assert (H : Nat.iter j sqlStep (Some rows) = Some (skipn j rows)).
  { induction j as [|j IH]; [reflexivity|]. change (Nat.iter (S j) sqlStep (Some rows)) with (sqlStep (Nat.iter j sqlStep (Some rows))). rewrite IH. cbn [sqlStep option_map]. f_equal. clear. revert rows. induction j as [|j IH]; intros [|r rows]; try reflexivity. cbn [skipn]. exact (IH rows). }
  split; [exact H|]. rewrite H. pose proof (skipn_length j rows) as L. destruct (skipn j rows) as [|r t]; cbn [length sqlSuccess] in *; split; try discriminate; try reflexivity; lia.
Qed.
Print Assumptions C87_steps.
(** What is shown of a cell. *)
Definition shows (c : cell) (s : list Z) : Prop := match c with Null => s = [] | Int z => s = sprintf_ld z | Text t => s = t end.
Definition counts (c : cell) (z : Z) : Prop :=
  match c with
  | Null => z = 0
  | Int n => z = n
  | Text t => (forall ws sign ds s rest, t = ws ++ sign ++ s ++ rest -> Forall (fun c => isspace c = true) ws -> is_sign sign -> digit_string 10 ds s -> ds <> [] -> stops 10 rest -> z = saturate (sign_of sign * positional 10 ds)) /\
      (forall ws sign rest, t = ws ++ sign ++ rest -> Forall (fun c => isspace c = true) ws -> is_sign sign -> stops 10 rest ->
         (sign = [] -> forall c r, rest = c :: r -> isspace c = false /\ c <> 43 /\ c <> 45) -> z = 0)
  end.
Lemma digit_prefix_app ds s rest : digit_string 10 ds s -> stops 10 rest -> digit_prefix (s ++ rest) = s.
Proof.
  intros D R. induction D as [|d c ds s [L C] D IH]; cbn [app digit_prefix].
  - destruct rest as [|c t]; [reflexivity|]. cbn [digit_prefix]. destruct (is_digit c) eqn:E; [|reflexivity]. exfalso. apply (R (c - 48)); unfold is_digit, char_of_digit in *; lia.
  - replace (is_digit c) with true by (unfold char_of_digit in C; unfold is_digit; lia). rewrite IH. reflexivity.
Qed.
Lemma column_int64_counts c : counts c (column_int64 c).
Proof.
  destruct c as [|z|t]; [reflexivity|reflexivity|]. cbn [counts column_int64]. split.
  2:{ intros ws sign rest -> W G R NS. unfold text_int. rewrite skip_space_app by exact W.
      pose proof (digit_prefix_app [] [] rest (Forall2_nil _) R) as P. cbn [app] in P.
      destruct G as [->|[->| ->]]; cbn [app].
      - destruct rest as [|c r]; [reflexivity|]. destruct (NS eq_refl c r eq_refl) as (S & S1 & S2).
        rewrite skip_nospace by exact S. replace (c =? 45) with false by lia. replace (c =? 43) with false by lia. rewrite P. reflexivity.
      - rewrite skip_nospace by reflexivity. change (43 =? 45) with false. change (43 =? 43) with true. cbv iota. rewrite P. reflexivity.
      - rewrite skip_nospace by reflexivity. change (45 =? 45) with true. cbv iota. rewrite P. reflexivity. }
  intros ws sign ds s rest -> W G D NE R. unfold text_int. rewrite skip_space_app by exact W.
  assert (CL : forall z, clamp64 z = saturate z) by (intros z; unfold clamp64, saturate; destruct (Z.ltb_spec z (- 2 ^ 63)); [lia|]; destruct (Z.ltb_spec z (2 ^ 63)); lia).
  pose proof (digit_prefix_app _ _ _ D R) as P. pose proof (digits_value_positional _ _ D) as V. destruct D as [|d c ds s [L C] D]; [contradiction NE; reflexivity|].
  assert (S : isspace c = false /\ c <> 45 /\ c <> 43) by (unfold char_of_digit in C; unfold isspace; lia). destruct S as (S & S1 & S2). destruct G as [->|[->| ->]]; cbn [app] in *.
  - rewrite skip_nospace by exact S. replace (c =? 45) with false by lia. replace (c =? 43) with false by lia. rewrite P, V, CL. change (sign_of []) with 1. rewrite Z.mul_1_l. reflexivity.
  - rewrite skip_nospace by reflexivity. change (43 =? 45) with false. change (43 =? 43) with true. cbv iota. rewrite P, V, CL. change (sign_of [43]) with 1. rewrite Z.mul_1_l. reflexivity.
  - rewrite skip_nospace by reflexivity. change (45 =? 45) with true. cbv iota. rewrite P, V, CL. change (sign_of [45]) with (-1). replace (-1 * positional 10 (d :: ds)) with (- positional 10 (d :: ds)) by lia. reflexivity.
Qed.
(** getResultText and getResultInt give the columns of the present row; there must be one of that number. *)
Theorem C87_columns rows j : match rows with
  | [] => getResultText (Some rows) j = Ok [] /\ getResultInt (Some rows) j = Ok 0
  | row :: _ => match nth_error row j with
                | Some c => exists s z, getResultText (Some rows) j = Ok s /\ shows c s /\ getResultInt (Some rows) j = Ok z /\ counts c z
                | None => getResultText (Some rows) j = UB /\ getResultInt (Some rows) j = UB
                end
  end.
Proof.
  destruct rows as [|row rows]; [split; reflexivity|]. unfold getResultText, getResultInt, nth_cell. destruct (nth_error row j) as [c|]; [|split; reflexivity]. cbn [bind]. eexists. eexists. split; [reflexivity|]. split; [destruct c; reflexivity|]. split; [reflexivity|]. apply column_int64_counts.
Qed.
Print Assumptions C87_columns.

(** ** Single lookups *)
(** The first row meant by the key. *)
Definition first (a : affinity) (x : cell) (k : nat) (d : list (list cell)) (o : option (list cell)) : Prop :=
  match o with
  | None => forall row, In row d -> ~ means a x (nth k row Null)
  | Some row => exists before after, d = before ++ row :: after /\ means a x (nth k row Null) /\ forall r, In r before -> ~ means a x (nth k r Null)
  end.
Lemma picks_first a x k d rs : picks a x k d rs -> first a x k d (hd_error rs).
Proof.
  intros P. induction P as [|row d r M P IH|row d r M P IH]; [intros row []| |].
  - exists [], d. split; [reflexivity|]. split; [exact M|intros ? []].
  - destruct r as [|r0 r]; cbn [hd_error first] in *.
    + intros r' [<-|I]; [exact M|exact (IH r' I)].
    + destruct IH as (b & af & -> & M' & N). exists (row :: b), af. split; [reflexivity|]. split; [exact M'|]. intros r' [<-|I]; [exact M|exact (N r' I)].
Qed.
Lemma dec_no_nul fuel : forall n, no_nul (dec_digits fuel n).
Proof.
  induction fuel as [|fuel IH]; intros n; [intros []|]. cbn [dec_digits]. intros K. apply in_app_iff in K. destruct K as [K|[K|[]]]; [destruct (n <? 10); [destruct K|exact (IH _ K)]|lia].
Qed.
Lemma number_no_nul z : no_nul (sprintf_ld z).
Proof. unfold sprintf_ld. destruct (z <? 0); [intros [K|K]; [discriminate K|exact (dec_no_nul _ _ K)]|apply dec_no_nul]. Qed.
Lemma dec_length fuel : forall n, (length (dec_digits fuel n) <= fuel)%nat.
Proof. induction fuel as [|fuel IH]; intros n; [cbn; lia|]. cbn [dec_digits]. rewrite app_length. change (length [48 + n mod 10]) with 1%nat. destruct (n <? 10); [cbn [length]; lia|]. specialize (IH (n / 10)). lia. Qed.
Lemma number_length n : 0 <= n -> (length (sprintf_ld n) <= 20)%nat.
Proof. intros R. unfold sprintf_ld. replace (n <? 0) with false by lia. apply dec_length. Qed.
(** The copy handed out: none of NULL, else the text of the cell (up to a NUL). *)
Definition copy_of (c : cell) (o : option (list Z)) : Prop :=
  match c with Null => o = None | Int z => o = Some (sprintf_ld z) | Text s => exists t, o = Some t /\ no_nul t /\ (s = t \/ exists rest, s = t ++ 0 :: rest) end.
Lemma c_str_cut s : no_nul (c_str s) /\ (s = c_str s \/ exists rest, s = c_str s ++ 0 :: rest).
Proof.
  induction s as [|c s [N H]]; [split; [intros []|left; reflexivity]|]. cbn [c_str]. destruct (Z.eqb_spec c 0) as [->|NE].
  - split; [intros []|right; exists s; reflexivity].
  - split; [intros [K|K]; [congruence|exact (N K)]|]. destruct H as [H|[rest H]]; [left; congruence|right; exists rest; cbn [app]; congruence].
Qed.
Lemma copied_first rs i : copied (Some (map (project [i]) rs)) = Ok (match hd_error rs with Some row => (true, option_map c_str (column_text (nth i row Null))) | None => (false, None) end).
Proof. destruct rs as [|row rs]; reflexivity. Qed.
Lemma copy_ok c : copy_of c (option_map c_str (column_text c)).
Proof. destruct c as [|z|s]; cbn [copy_of column_text option_map]; [reflexivity|rewrite c_str_id by apply number_no_nul; reflexivity|]. exists (c_str s). split; [reflexivity|]. apply c_str_cut. Qed.
Lemma lists_one T n i a : is_column T n i a -> asks T n [i].
Proof. intros C. apply AskList. econstructor. exact C. Qed.
Lemma into_ok n t : Z.of_nat (length t) < n -> into n t = Ok t.
Proof. intros L. unfold into. replace (Z.of_nat (length t) <? n) with true by lia. reflexivity. Qed.
(** The lookup of a text by a number, for names of every length. *)
Theorem C87_lookup_u T kn k a vn i b n : good_table T -> is_column T kn k a -> is_column T vn i b -> 0 <= n < 2 ^ 32 ->
  exists o, first a (Int n) k (data T) o /\
    match o with
    | Some row => exists s, copy_of (nth i row Null) s /\ lookup_text_u T true (rname T) kn n vn = Ok (true, s)
    | None => lookup_text_u T true (rname T) kn n vn = Ok (false, None)
    end.
Proof.
  intros G C V R. destruct (where_number T vn [i] kn k a n G (lists_one _ _ _ _ V) C R) as (rs & P & S). exists (hd_error rs). split; [exact (picks_first _ _ _ _ _ P)|].
  assert (E : lookup_text_u T true (rname T) kn n vn = copied (Some (map (project [i]) rs))).
  { unfold lookup_text_u, len. rewrite (c_str_id vn), (c_str_id kn), (c_str_id (rname T)) by (apply plain_no_nul; first [exact (proj1 G)|exact (proj1 C)|exact (proj1 V)]).
    change (lit "SELECT " ++ vn ++ lit " FROM " ++ rname T ++ lit " WHERE " ++ kn ++ lit " == " ++ sprintf_ld n) with (statement vn (rname T) kn (sprintf_ld n)).
    rewrite into_ok; [cbn [bind answer]; rewrite S; reflexivity|]. rewrite statement_length. unfold text_length. pose proof (number_length n ltac:(lia)). lia. }
  rewrite E, copied_first. destruct (hd_error rs) as [row|]; [|reflexivity]. eexists. split; [apply copy_ok|reflexivity].
Qed.
Print Assumptions C87_lookup_u.
Lemma double_length v : Z.of_nat (length (lit """" ++ v ++ lit """")) = Z.of_nat (length v) + 2.
Proof. rewrite !app_length. change (length (lit """")) with 1%nat. lia. Qed.
(** The lookups of a text, of a number and of nothing by a text without double quotes that names no column. *)
Theorem C87_lookup_text T kn k a vn i b v : good_table T -> is_column T kn k a -> is_column T vn i b -> key_ok a (Text v) -> no_nul v -> ~ In 34 v -> no_column T v ->
  exists o, first a (Text v) k (data T) o /\
    match o with
    | Some row => exists s, copy_of (nth i row Null) s /\ lookup_text T true (rname T) kn v vn = Ok (true, s)
    | None => lookup_text T true (rname T) kn v vn = Ok (false, None)
    end.
Proof.
  intros G C V K N Q NC. destruct (where_double T vn [i] kn k a v G (lists_one _ _ _ _ V) C K N Q NC) as (rs & P & S). exists (hd_error rs). split; [exact (picks_first _ _ _ _ _ P)|].
  assert (E : lookup_text T true (rname T) kn v vn = copied (Some (map (project [i]) rs))).
  { unfold lookup_text, len. rewrite (c_str_id vn), (c_str_id kn), (c_str_id (rname T)) by (apply plain_no_nul; first [exact (proj1 G)|exact (proj1 C)|exact (proj1 V)]). rewrite (c_str_id v N).
    change (lit "SELECT " ++ vn ++ lit " FROM " ++ rname T ++ lit " WHERE " ++ kn ++ lit " == """ ++ v ++ lit """") with (statement vn (rname T) kn (lit """" ++ v ++ lit """")).
    cbv zeta. rewrite firstn_all2; [cbn [answer]; rewrite S; reflexivity|]. pose proof (statement_length vn (rname T) kn (lit """" ++ v ++ lit """")) as L. rewrite double_length in L. unfold text_length in L. lia. }
  rewrite E, copied_first. destruct (hd_error rs) as [row|]; [|reflexivity]. eexists. split; [apply copy_ok|reflexivity].
Qed.
Print Assumptions C87_lookup_text.
Theorem C87_lookup_number T kn k a vn i b v old : good_table T -> is_column T kn k a -> is_column T vn i b -> key_ok a (Text v) -> no_nul v -> ~ In 34 v -> no_column T v ->
  exists o, first a (Text v) k (data T) o /\
    match o with
    | Some row => exists z, counts (nth i row Null) z /\ lookup_number T true (rname T) kn v vn old = Ok (true, z mod 2 ^ 32)
    | None => lookup_number T true (rname T) kn v vn old = Ok (false, old)
    end.
Proof.
  intros G C V K N Q NC. destruct (where_double T vn [i] kn k a v G (lists_one _ _ _ _ V) C K N Q NC) as (rs & P & S). exists (hd_error rs). split; [exact (picks_first _ _ _ _ _ P)|].
  unfold lookup_number, len. rewrite (c_str_id vn), (c_str_id kn), (c_str_id (rname T)) by (apply plain_no_nul; first [exact (proj1 G)|exact (proj1 C)|exact (proj1 V)]). rewrite (c_str_id v N).
  change (lit "SELECT " ++ vn ++ lit " FROM " ++ rname T ++ lit " WHERE " ++ kn ++ lit " == """ ++ v ++ lit """") with (statement vn (rname T) kn (lit """" ++ v ++ lit """")).
  rewrite into_ok by (rewrite statement_length, double_length; unfold text_length; lia). cbn [bind answer]. rewrite S. destruct rs as [|row rs]; cbn [map hd_error]; [reflexivity|].
  exists (column_int64 (nth i row Null)). split; [apply column_int64_counts|reflexivity].
Qed.
Print Assumptions C87_lookup_number.
Theorem C87_exists T kn k a v : good_table T -> is_column T kn k a -> key_ok a (Text v) -> no_nul v -> ~ In 34 v -> no_column T v ->
  exists b, exists_ T true (rname T) kn v = Ok b /\ (b = true <-> exists row, In row (data T) /\ means a (Text v) (nth k row Null)).
Proof.
  intros G C K N Q NC. destruct (where_double T (lit "*") _ kn k a v G (AskAll T) C K N Q NC) as (rs & P & S).
  exists (match rs with [] => false | _ => true end). split.
  - unfold exists_, len. rewrite (c_str_id kn), (c_str_id (rname T)) by (apply plain_no_nul; first [exact (proj1 G)|exact (proj1 C)]). rewrite (c_str_id v N).
    change (lit "SELECT * FROM " ++ rname T ++ lit " WHERE " ++ kn ++ lit " == """ ++ v ++ lit """") with (statement (lit "*") (rname T) kn (lit """" ++ v ++ lit """")).
    rewrite into_ok by (rewrite statement_length, double_length; unfold text_length; change (length (lit "*")) with 1%nat; lia). cbn [bind answer]. rewrite S. destruct rs; reflexivity.
  - pose proof (picks_first _ _ _ _ _ P) as F. destruct rs as [|row rs]; cbn [hd_error first] in F.
    + split; [discriminate|]. intros (row & I & M). exfalso. exact (F row I M).
    + split; [|reflexivity]. intros _. destruct F as (b & af & E & M & _). exists row. split; [rewrite E; apply in_elt|exact M].
Qed.
Print Assumptions C87_exists.
(** The lookups through sqlQuery: found, or the caller's text is left alone. *)
Lemma found_first rs i old : exists s, found (Some (map (project [i]) rs)) old = Ok (match hd_error rs with Some _ => true | None => false end, s) /\ match hd_error rs with Some row => shows (nth i row Null) s | None => s = old end.
Proof. destruct rs as [|row rs]; [exists old; split; reflexivity|]. eexists. split; [reflexivity|]. cbn [hd_error]. destruct (nth i row Null); reflexivity. Qed.
Theorem C87_single_u T kn k a vn i b n old : good_table T -> is_column T kn k a -> is_column T vn i b -> 0 <= n < 2 ^ 32 ->
  (length kn + length (sprintf_ld n) <= 89)%nat -> text_length vn (rname T) kn (Z.of_nat (length (sprintf_ld n))) <> 199 -> text_length vn (rname T) kn (Z.of_nat (length (sprintf_ld n))) <= 5000 ->
  exists o, first a (Int n) k (data T) o /\
    match o with
    | Some row => exists s, shows (nth i row Null) s /\ single_lookup_u T true (rname T) kn n vn old = Ok (true, s)
    | None => single_lookup_u T true (rname T) kn n vn old = Ok (false, old)
    end.
Proof.
  intros G C V R L1 L2 L3. destruct (C87_query_u T vn [i] kn k a n G (lists_one _ _ _ _ V) C R L1 L2 L3) as (rs & P & S). exists (hd_error rs). split; [exact (picks_first _ _ _ _ _ P)|].
  unfold single_lookup_u. rewrite S. destruct (found_first rs i old) as (s & E & H). rewrite E. destruct (hd_error rs); [exists s; split; [exact H|reflexivity]|subst s; reflexivity].
Qed.
Print Assumptions C87_single_u.
Theorem C87_single_c T kn k a vn i b v old : good_table T -> is_column T kn k a -> is_column T vn i b -> key_ok a (Text v) -> no_nul v -> ~ In 39 v ->
  (length kn + length v <= 87)%nat -> text_length vn (rname T) kn (Z.of_nat (length v) + 2) <> 199 -> text_length vn (rname T) kn (Z.of_nat (length v) + 2) <= 5000 ->
  exists o, first a (Text v) k (data T) o /\
    match o with
    | Some row => exists s, shows (nth i row Null) s /\ single_lookup_c T true (rname T) kn v vn old = Ok (true, s) /\ lookup_string_c T true (rname T) kn v vn = Ok s
    | None => single_lookup_c T true (rname T) kn v vn old = Ok (false, old) /\ lookup_string_c T true (rname T) kn v vn = Ok []
    end.
Proof.
  intros G C V K N Q L1 L2 L3. destruct (C87_query_c T vn [i] kn k a v G (lists_one _ _ _ _ V) C K N Q L1 L2 L3) as (rs & P & S). exists (hd_error rs). split; [exact (picks_first _ _ _ _ _ P)|].
  unfold single_lookup_c, lookup_string_c. rewrite S. destruct rs as [|row rs]; cbn [hd_error]; [split; reflexivity|].
  eexists. split; [|split; reflexivity]. destruct (nth i row Null); reflexivity.
Qed.
Print Assumptions C87_single_c.
(** Without an answer nothing is found and nothing is changed. *)
Theorem C87_down T t kn v vn n old s : 0 <= n < 2 ^ 32 ->
  exists_ T false t kn v = Ok false /\ lookup_number T false t kn v vn old = Ok (false, old) /\ lookup_text T false t kn v vn = Ok (false, None) /\ lookup_text_u T false t kn n vn = Ok (false, None) /\
  single_lookup_c T false t kn v vn s = Ok (false, s) /\ single_lookup_u T false t kn n vn s = Ok (false, s) /\ lookup_string_c T false t kn v vn = Ok [] /\
  forall cs j, sqlSuccess (Nat.iter j sqlStep (sqlQuery_u T false t cs kn n)) = false /\ sqlSuccess (Nat.iter j sqlStep (sqlQuery_c T false t cs kn v)) = false.
Proof.
  intros R. pose proof (number_length n ltac:(lia)) as L. unfold exists_, lookup_number, lookup_text, lookup_text_u, len.
  rewrite !into_ok by (rewrite !app_length; change (length (lit "SELECT ")) with 7%nat; change (length (lit "SELECT * FROM ")) with 14%nat; change (length (lit " FROM ")) with 6%nat; change (length (lit " WHERE ")) with 7%nat; change (length (lit " == ")) with 4%nat; change (length (lit " == """)) with 5%nat; change (length (lit """")) with 1%nat; lia).
  repeat split; assert (I : forall j, Nat.iter j sqlStep None = None) by (clear; induction j as [|j IH]; [reflexivity|]; change (Nat.iter (S j) sqlStep None) with (sqlStep (Nat.iter j sqlStep None)); rewrite IH; reflexivity);
    [change (sqlQuery_u T false t cs kn n) with (@None (list (list cell)))|change (sqlQuery_c T false t cs kn v) with (@None (list (list cell)))]; rewrite I; reflexivity.
Qed.
Print Assumptions C87_down.

(** ** Numbers and their texts as keys *)
Lemma looks_number n : 0 <= n < 2 ^ 32 -> looks_like (sprintf_ld n) n.
Proof.
  intros R. destruct (num_text n R) as (d & ds & D & V). exists [], [], (d :: ds), (sprintf_ld n), []. split; [rewrite app_nil_r; reflexivity|]. split; [constructor|]. split; [constructor|]. split; [left; reflexivity|]. split; [discriminate|]. split; [exact D|]. split; [change (sign_of []) with 1; lia|lia].
Qed.
Lemma picks_same a x y k d r : picks a x k d r -> (forall row, In row d -> (means a x (nth k row Null) <-> means a y (nth k row Null))) -> picks a y k d r.
Proof.
  intros P. induction P as [|row d r M P IH|row d r M P IH]; intros H; [constructor|apply PickThis|apply PickOther]; try (apply IH; intros r' I; apply H; right; exact I); [apply H; [left; reflexivity|exact M]|intros K; apply M, (H row (or_introl eq_refl)), K].
Qed.
Lemma picks_det a x k d : forall r r', picks a x k d r -> picks a x k d r' -> r = r'.
Proof.
  induction d as [|row d IH]; intros r r' P P'; inversion P; inversion P'; subst; try contradiction; [reflexivity|f_equal; apply IH; assumption|apply IH; assumption].
Qed.
Lemma may_hold_nth T kn k a row : good_table T -> is_column T kn k a -> In row (data T) -> may_hold a (nth k row Null).
Proof.
  intros G (_ & m & NE & _) I. destruct G as (_ & _ & F). rewrite Forall_forall in F. specialize (F row I). clear I. rename F into R. revert k NE. generalize dependent (cols T). intros l R. remember (map snd l) as as_ eqn:E. revert l E.
  induction R as [|b c bs row M R IH]; intros l E k NE.
  - destruct l; [|discriminate E]. destruct k; discriminate NE.
  - destruct l as [|[m' b'] l]; [discriminate E|]. cbn [map snd] in E. injection E as -> ->. destruct k as [|k]; cbn [nth_error nth] in *; [injection NE as -> ->; exact M|exact (IH l eq_refl k NE)].
Qed.
Lemma means_agree a n c : a <> ANone -> 0 <= n < 2 ^ 32 -> may_hold a c -> (means a (Int n) c <-> means a (Text (sprintf_ld n)) c).
Proof.
  intros A R H. destruct a; [| |contradiction A; reflexivity]; destruct c as [|z|s]; try reflexivity; try (destruct H; fail); cbn [means may_hold] in *.
  - split; [intros <-; apply looks_number, R|]. intros L. pose proof (looks_numeric _ _ L) as E. rewrite (looks_numeric _ _ (looks_number n R)) in E. congruence.
  - split; [intros []|]. intros ->. apply no_number_numeric in H. rewrite (looks_numeric _ _ (looks_number n R)) in H. discriminate H.
Qed.
(** In TEXT and INTEGER columns it does not matter whether the key is given as a number or as its text. *)
Theorem C87_agree T kn k a vn i b n old : good_table T -> is_column T kn k a -> is_column T vn i b -> a <> ANone -> 0 <= n < 2 ^ 32 ->
  (no_column T (sprintf_ld n) -> lookup_text T true (rname T) kn (sprintf_ld n) vn = lookup_text_u T true (rname T) kn n vn) /\
  ((length kn + length (sprintf_ld n) <= 87)%nat -> text_length vn (rname T) kn (Z.of_nat (length (sprintf_ld n))) + 2 <= 198 ->
    single_lookup_c T true (rname T) kn (sprintf_ld n) vn old = single_lookup_u T true (rname T) kn n vn old).
Proof.
  intros G C V A R. pose proof (number_no_nul n) as N. destruct (num_text n R) as (d & ds & D & _).
  assert (Q : ~ In 34 (sprintf_ld n) /\ ~ In 39 (sprintf_ld n)). { pose proof (digits_all _ _ D) as F. rewrite forallb_forall in F. split; intros K; specialize (F _ K); discriminate F. } destruct Q as [Q1 Q2].
  assert (K : key_ok a (Text (sprintf_ld n))) by (intros _; left; exists n; apply looks_number, R).
  assert (PS : forall r r', picks a (Int n) k (data T) r -> picks a (Text (sprintf_ld n)) k (data T) r' -> r = r').
  { intros r r' P P'. refine (picks_det _ _ _ _ _ _ (picks_same _ _ _ _ _ _ P _) P'). intros row I. apply means_agree; [exact A|exact R|exact (may_hold_nth T kn k a row G C I)]. }
  split.
  - intros NC. destruct (where_number T vn [i] kn k a n G (lists_one _ _ _ _ V) C R) as (rs & P & S). destruct (where_double T vn [i] kn k a _ G (lists_one _ _ _ _ V) C K N Q1 NC) as (rs' & P' & S'). rewrite (PS _ _ P P') in S. 
    unfold lookup_text, lookup_text_u, len. rewrite (c_str_id vn), (c_str_id kn), (c_str_id (rname T)) by (apply plain_no_nul; first [exact (proj1 G)|exact (proj1 C)|exact (proj1 V)]). rewrite (c_str_id _ N).
    change (lit "SELECT " ++ vn ++ lit " FROM " ++ rname T ++ lit " WHERE " ++ kn ++ lit " == " ++ sprintf_ld n) with (statement vn (rname T) kn (sprintf_ld n)).
    change (lit "SELECT " ++ vn ++ lit " FROM " ++ rname T ++ lit " WHERE " ++ kn ++ lit " == """ ++ sprintf_ld n ++ lit """") with (statement vn (rname T) kn (lit """" ++ sprintf_ld n ++ lit """")).
    pose proof (number_length n ltac:(lia)) as NL. rewrite into_ok by (rewrite statement_length; unfold text_length; lia). cbv zeta. rewrite firstn_all2 by (pose proof (statement_length vn (rname T) kn (lit """" ++ sprintf_ld n ++ lit """")) as L; rewrite double_length in L; unfold text_length in L; lia).
    cbn [bind answer]. rewrite S, S'. reflexivity.
  - intros L1 L2. unfold text_length in L2.
    destruct (C87_query_u T vn [i] kn k a n G (lists_one _ _ _ _ V) C R ltac:(lia) ltac:(unfold text_length; lia) ltac:(unfold text_length; lia)) as (rs & P & S).
    destruct (C87_query_c T vn [i] kn k a _ G (lists_one _ _ _ _ V) C K N Q2 ltac:(lia) ltac:(unfold text_length; lia) ltac:(unfold text_length; lia)) as (rs' & P' & S').
    unfold single_lookup_c, single_lookup_u. rewrite S, S', (PS _ _ P P'). reflexivity.
Qed.
Print Assumptions C87_agree.
(** Defects.  In a column without a type it does matter. *)
Theorem C87_agree_refuted : exists T, good_table T /\ is_column T (lit "id") 0 ANone /\
  lookup_text_u T true (rname T) (lit "id") 12 (lit "val") = Ok (true, Some (lit "twelve")) /\ lookup_text T true (rname T) (lit "id") (lit "12") (lit "val") = Ok (false, None).
Proof.
  exists (Table (lit "T") [(lit "id", ANone); (lit "val", ATextual)] [[Int 12; Text (lit "twelve")]]).
  split; [split; [|split]|split; [|split; reflexivity]].
  - split; [repeat constructor|]. split; [right; vm_compute; reflexivity|]. intros H. repeat (destruct H as [H|H]; [discriminate H|]). destruct H.
  - vm_compute. repeat constructor; cbn [In]; intuition discriminate.
  - repeat constructor; vm_compute; intuition discriminate.
  - split; [|exists (lit "id"); split; reflexivity]. split; [repeat constructor|]. split; [right; vm_compute; reflexivity|]. intros H. repeat (destruct H as [H|H]; [discriminate H|]). destruct H.
Qed.
Print Assumptions C87_agree_refuted.
(** sqlQuery by a number cuts long conditions: with a key column of 88 letters the row of 1 is found for 12. *)
Theorem C87_cut_refuted : exists T kn, is_column T kn 0 AInteger /\ data T = [[Int 1; Text (lit "one")]; [Int 12; Text (lit "twelve")]] /\
  single_lookup_u T true (rname T) kn 12 (lit "val") [] = Ok (true, lit "one") /\ lookup_text_u T true (rname T) kn 12 (lit "val") = Ok (true, Some (lit "twelve")).
Proof.
  exists (Table (lit "T") [(repeat 107 88, AInteger); (lit "val", ATextual)] [[Int 1; Text (lit "one")]; [Int 12; Text (lit "twelve")]]), (repeat 107 88).
  split; [split|split; [reflexivity|split; vm_compute; reflexivity]]; [|exists (repeat 107 88); split; reflexivity].
  split; [apply Forall_forall; intros c I; apply repeat_spec in I; subst c; reflexivity|]. split; [right; vm_compute; reflexivity|]. intros H. vm_compute in H. intuition discriminate.
Qed.
Print Assumptions C87_cut_refuted.
(** A statement of exactly 199 characters loses its last one. *)
Theorem C87_format_refuted : exists T kn vn, is_column T kn 0 AInteger /\ is_column T vn 1 ATextual /\ (length kn + length (sprintf_ld 12) <= 89)%nat /\ data T = [[Int 1; Text (lit "one")]; [Int 12; Text (lit "twelve")]] /\
  single_lookup_u T true (rname T) kn 12 vn [] = Ok (true, lit "one") /\ lookup_text_u T true (rname T) kn 12 vn = Ok (true, Some (lit "twelve")).
Proof.
  exists (Table (lit "T") [(lit "id", AInteger); (repeat 118 170, ATextual)] [[Int 1; Text (lit "one")]; [Int 12; Text (lit "twelve")]]), (lit "id"), (repeat 118 170).
  split; [|split; [|split; [vm_compute; repeat constructor|split; [reflexivity|split; vm_compute; reflexivity]]]].
  - split; [|exists (lit "id"); split; reflexivity]. split; [repeat constructor|]. split; [right; vm_compute; reflexivity|]. intros H. vm_compute in H. intuition discriminate.
  - split; [|exists (repeat 118 170); split; reflexivity]. split; [apply Forall_forall; intros c I; apply repeat_spec in I; subst c; reflexivity|]. split; [right; vm_compute; reflexivity|]. intros H. vm_compute in H. intuition discriminate.
Qed.
Print Assumptions C87_format_refuted.
(** A key with a single quote selects every row; a key that is a column name selects rows by that column. *)
Definition people : table := Table (lit "people") [(lit "name", ATextual); (lit "age", AInteger); (lit "boss", ATextual)]
  [[Text (lit "ann"); Int 41; Text (lit "ann")]; [Text (lit "bob"); Int (2 ^ 32 + 7); Null]; [Text (lit "boss"); Int 30; Text (lit "cy")]; [Text (lit "cy"); Null; Text (lit "ann")]].
Theorem C87_quote_refuted :
  (exists rows, sqlQuery_c people true (lit "people") (lit "*") (lit "name") (lit "x' OR 'a'=='a") = Some rows /\ rows = data people) /\
  lookup_text people true (lit "people") (lit "name") (lit "boss") (lit "boss") = Ok (true, Some (lit "ann")) /\ single_lookup_c people true (lit "people") (lit "name") (lit "boss") (lit "boss") [] = Ok (true, lit "cy").
Proof. split; [eexists; split; [vm_compute; reflexivity|reflexivity]|split; vm_compute; reflexivity]. Qed.
Print Assumptions C87_quote_refuted.
Example C87_ex :
  good_table people /\ asks people (lit "boss, age") [2%nat; 1%nat] /\
  sqlQuery_u people true (lit "people") (lit "boss, age") (lit "age") 41 = Some [[Text (lit "ann"); Int 41]] /\
  sqlQuery_c people true (lit "people") (lit "name,age") (lit "Boss") (lit "ann") = Some [[Text (lit "ann"); Int 41]; [Text (lit "cy"); Null]] /\
  lookup_number people true (lit "people") (lit "name") (lit "bob") (lit "age") 5 = Ok (true, 7) /\ lookup_number people true (lit "people") (lit "name") (lit "dan") (lit "age") 5 = Ok (false, 5) /\
  lookup_text people true (lit "people") (lit "age") (lit " +30") (lit "name") = Ok (true, Some (lit "boss")) /\ lookup_text people true (lit "people") (lit "name") (lit "bob") (lit "boss") = Ok (true, None) /\
  lookup_text_u people true (lit "people") (lit "age") 30 (lit "name") = Ok (true, Some (lit "boss")) /\ exists_ people true (lit "people") (lit "name") (lit "cy") = Ok true /\ exists_ people true (lit "people") (lit "name") (lit "c") = Ok false.
Proof.
  assert (PN : forall n, Forall (fun c => wordchar c = true) n -> match n with c :: _ => 57 < c | [] => False end -> ~ In (upper n) reserved -> plain_name n) by (intros n A B C; split; [exact A|]; split; [destruct n; [exact B|right; exact B]|exact C]).
  split; [split; [|split]|split].
  - apply PN; [repeat constructor|reflexivity|vm_compute; intuition discriminate].
  - vm_compute. repeat constructor; cbn [In]; intuition discriminate.
  - repeat constructor; vm_compute; intuition discriminate.
  - apply AskList. change (lit "boss, age") with (lit "boss" ++ lit "," ++ lit " " ++ lit "age"). apply ListMore with ATextual; [|repeat constructor|apply ListOne with AInteger].
    + split; [apply PN; [repeat constructor|reflexivity|vm_compute; intuition discriminate]|exists (lit "boss"); split; reflexivity].
    + split; [apply PN; [repeat constructor|reflexivity|vm_compute; intuition discriminate]|exists (lit "age"); split; reflexivity].
  - repeat split; vm_compute; reflexivity.
Qed.
