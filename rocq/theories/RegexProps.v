(** C93: regular expressions. *)
From Verif Require Import Base BaseFacts UtilsModel UtilsSpec SqlModel SqlProofs ConfigModel ConfigSpec RegexModel RegexSpec RegexProofs RegexParse RegexParse2 ValidModel ValidSpec ValidProps.
From Coq Require Import Lia.
Local Open Scope Z_scope.

(** The expressions regcomp accepts are those written as RegexSpec says, and it reads them as written. *)
Theorem C93_compile p r : no_nul p ->
  regcomp p = Compiled r <-> exists c, alternatives_ok true c /\ alternatives_text c = p /\ alternatives_re c = r.
Proof.
  intros N. pose proof (regcomp_spec p N) as S. split.
  - intros E. rewrite E in S. exact S.
  - intros (c & OK & E & <-). destruct (regcomp p) as [r'| |] eqn:EP.
    + destruct S as (c' & OK' & E' & <-). f_equal. destruct parse_complete as (PC & _ & _).
      pose proof (PC c true [] (3 * length p + 3)%nat OK (or_introl eq_refl)) as P1. pose proof (PC c' true [] (3 * length p + 3)%nat OK' (or_introl eq_refl)) as P2.
      rewrite E, app_nil_r in P1. rewrite E', app_nil_r in P2. specialize (P1 ltac:(lia)). specialize (P2 ltac:(lia)). congruence.
    + contradiction (S c OK E).
    + destruct S as [_ S]. contradiction (S c OK E).
Qed.
Print Assumptions C93_compile.
(** No expression can be read in two ways. *)
Theorem C93_unique c c' : alternatives_ok true c -> alternatives_ok true c' -> alternatives_text c = alternatives_text c' -> alternatives_re c = alternatives_re c'.
Proof.
  intros OK OK' E. destruct parse_complete as (PC & _ & _). set (n := (3 * length (alternatives_text c) + 3)%nat).
  pose proof (PC c true [] n OK (or_introl eq_refl) ltac:(unfold n; lia)) as P1.
  pose proof (PC c' true [] n OK' (or_introl eq_refl) ltac:(unfold n; rewrite E; lia)) as P2. rewrite E in P1. congruence.
Qed.
Print Assumptions C93_unique.
(** Everything else is an error, except what the model does not cover. *)
Theorem C93_invalid p : no_nul p -> ~ outside p -> regcomp p = Invalid <-> forall c, alternatives_ok true c -> alternatives_text c <> p.
Proof.
  intros N NO. pose proof (regcomp_spec p N) as S. split.
  - intros E. rewrite E in S. exact S.
  - intros H. destruct (regcomp p) as [r'| |].
    + destruct S as (c & OK & E & _). contradiction (H c OK E).
    + reflexivity.
    + destruct S as [S _]. contradiction.
Qed.
Print Assumptions C93_invalid.
Theorem C93_outside p : no_nul p -> regcomp p = Outside -> outside p.
Proof. intros N E. pose proof (regcomp_spec p N) as S. rewrite E in S. apply S. Qed.
Print Assumptions C93_outside.

(** ** The search *)
Lemma existsb_at P : existsb (fun b => b) P = true <-> exists j, at_ P j.
Proof.
  rewrite existsb_exists. split.
  - intros (x & I & ->). destruct (In_nth _ _ false I) as (j & _ & E). exists j. exact E.
  - intros (j & H). exists true. split; [|reflexivity]. pose proof (at_lt _ _ H) as L. unfold at_ in H. rewrite <- H. apply nth_In, L.
Qed.
(** regexec succeeds exactly if the text has a part that matches. *)
Theorem C93_search r text : bounded r -> no_nul text -> regexec r text = true <-> found r text.
Proof.
  intros B N. unfold regexec. rewrite (c_str_id _ N). cbv zeta. rewrite existsb_at. split.
  - intros (j & H). apply img_spec in H; [|exact B|apply repeat_length]. destruct H as (i & _ & u & v & w & E & _ & _ & D). exists u, v, w. auto.
  - intros (u & v & w & E & D). exists (length u + length v)%nat. apply img_spec; [exact B|apply repeat_length|]. exists (length u). split.
    + apply repeat_at. rewrite E, !app_length. lia.
    + exists u, v, w. auto.
Qed.
Print Assumptions C93_search.
Lemma bounded_repeated q : forall r, bounded r -> Forall quant_ok q -> bounded (fold_left repeated q r).
Proof.
  induction q as [|x q IH]; intros r B F; [exact B|]. inversion F as [|? ? OK F2]; subst. cbn [fold_left]. apply IH; [|exact F2].
  destruct x as [| | |a [[|c b]|]]; cbn [repeated bounded]; try (split; [exact B|lia || exact I]).
  cbn [quant_ok] in OK. destruct OK as ([FA _] & [FB _] & C). specialize (C ltac:(discriminate)).
  split; [exact B|]. apply Z2Nat.inj_le; [apply value_nonneg, FA|apply value_nonneg, FB|exact C].
Qed.
Lemma bounded_ok : (forall c top, alternatives_ok top c -> bounded (alternatives_re c)) /\ (forall b top, sequence_ok top b -> bounded (sequence_re b)) /\
  (forall a top, atom_ok top a -> bounded (atom_re a)).
Proof.
  apply syntax_ind; cbn [alternatives_re sequence_re atom_re bounded]; intros; auto.
  - eapply H. exact H0.
  - destruct H1 as [A B]. split; [eapply H, A|eapply H0, B].
  - destruct H1 as (A & Q & B). split; [|eapply H0, B]. destruct a; try (apply bounded_repeated; [eapply H, A|exact Q]); subst q; exact I.
  - eapply H. exact H0.
Qed.
(** What is compiled can be searched for. *)
Theorem C93_match p r text : no_nul p -> no_nul text -> regcomp p = Compiled r -> match_ r text = true <-> found r text.
Proof.
  intros N NT E. apply C93_search; [|exact NT]. apply C93_compile in E; [|exact N]. destruct E as (c & OK & _ & <-). apply (proj1 bounded_ok c true OK).
Qed.
Print Assumptions C93_match.
(** ** class Regexp *)
Theorem C93_Regexp p : no_nul p -> ~ outside p ->
  (exists c, alternatives_ok true c /\ alternatives_text c = p /\ Regexp p = Ok (alternatives_re c) /\
     forall text, no_nul text -> match_ (alternatives_re c) text = true <-> found (alternatives_re c) text) \/
  ((forall c, alternatives_ok true c -> alternatives_text c <> p) /\ Regexp p = Abort).
Proof.
  intros N NO. pose proof (regcomp_spec p N) as S. unfold Regexp. destruct (regcomp p) as [r| |] eqn:E.
  - destruct S as (c & OK & ET & <-). left. exists c. repeat split; auto; apply (C93_match p); auto.
  - right. auto.
  - destruct S as [S _]. contradiction.
Qed.
Print Assumptions C93_Regexp.

(** ** Plain text *)
Definition plain (c : Z) : Prop := ~ special c /\ c <> 41.
Fixpoint spell (s : list Z) (b : sequence) : sequence := match s with [] => b | c :: s => Then (Char c) [] (spell s b) end.
Lemma spell_ok s b top : Forall plain s -> sequence_ok top b -> sequence_ok top (spell s b).
Proof.
  intros F OK. induction F as [|c s [P1 P2] F IH]; [exact OK|]. cbn. split; [split; [exact P1|congruence]|]. split; [constructor|exact IH].
Qed.
Lemma spell_text s b : sequence_text (spell s b) = s ++ sequence_text b.
Proof. induction s as [|c s IH]; [reflexivity|]. cbn. rewrite IH. reflexivity. Qed.
Lemma spell_den s b : forall u v w, den (sequence_re (spell s b)) u v w <-> exists x, v = s ++ x /\ den (sequence_re b) (u ++ s) x w.
Proof.
  induction s as [|c s IH]; intros u v w.
  - cbn [spell app]. rewrite app_nil_r. split; [eauto|intros (x & -> & D); exact D].
  - cbn [spell sequence_re fold_left atom_re den]. split.
    + intros (x & y & -> & (d & -> & i & [<-|[]] & OI) & D). cbn in OI. subst d. apply IH in D. destruct D as (z & -> & D).
      exists z. split; [reflexivity|]. rewrite <- app_assoc in D. exact D.
    + intros (x & -> & D). exists [c], (s ++ x). split; [reflexivity|]. split.
      * exists c. split; [reflexivity|]. exists (IChar c). split; [left|]; reflexivity.
      * apply IH. exists x. split; [reflexivity|]. rewrite <- app_assoc. exact D.
Qed.
Lemma no_nul_plain s : no_nul s -> forall a b, no_nul a -> no_nul b -> no_nul (a ++ s ++ b).
Proof. intros N a b A B I. apply in_app_iff in I. destruct I as [I|I]; [apply A, I|]. apply in_app_iff in I. destruct I as [I|I]; [apply N, I|apply B, I]. Qed.
(** Without special characters an expression is looked for literally, between the anchors it is compared, and
    with one of them it is the begin or the end. *)
Theorem C93_literal s text : no_nul s -> no_nul text -> Forall plain s ->
  (exists r, regcomp s = Compiled r /\ (match_ r text = true <-> exists a b, text = a ++ s ++ b)) /\
  (exists r, regcomp (94 :: s ++ [36]) = Compiled r /\ (match_ r text = true <-> text = s)) /\
  (exists r, regcomp (94 :: s) = Compiled r /\ (match_ r text = true <-> exists b, text = s ++ b)) /\
  (exists r, regcomp (s ++ [36]) = Compiled r /\ (match_ r text = true <-> exists a, text = a ++ s)).
Proof.
  intros N NT F.
  assert (GO : forall c p (Q : Prop), alternatives_ok true c -> alternatives_text c = p -> no_nul p -> (found (alternatives_re c) text <-> Q) ->
    exists r, regcomp p = Compiled r /\ (match_ r text = true <-> Q)).
  { intros c p Q OK E NP H. exists (alternatives_re c). assert (EC : regcomp p = Compiled (alternatives_re c)) by (apply C93_compile; [exact NP|]; exists c; auto).
    split; [exact EC|]. rewrite (C93_match p _ text NP NT EC). exact H. }
  split; [|split; [|split]].
  - apply (GO (One (spell s Nothing))).
    + apply spell_ok; [exact F|exact I].
    + cbn [alternatives_text]. rewrite spell_text. apply app_nil_r.
    + exact N.
    + cbn [alternatives_re]. unfold found. setoid_rewrite spell_den. cbn [sequence_re den]. split.
      * intros (u & v & w & -> & x & -> & ->). exists u, w. rewrite app_nil_r. reflexivity.
      * intros (a & b & ->). exists a, s, b. split; [reflexivity|]. exists []. rewrite app_nil_r. auto.
  - apply (GO (One (Then Begin [] (spell s (Then End_ [] Nothing))))).
    + cbn. split; [exact I|]. split; [reflexivity|]. apply spell_ok; [exact F|cbn; auto].
    + cbn [alternatives_text sequence_text atom_text flat_map app]. rewrite spell_text. reflexivity.
    + apply (no_nul_plain s N [94] [36]); intros [X|[]]; discriminate.
    + cbn [alternatives_re sequence_re fold_left atom_re]. unfold found. cbn [den]. setoid_rewrite spell_den. cbn [sequence_re fold_left atom_re den]. split.
      * intros (u & v & w & -> & x & y & -> & (-> & ->) & z & -> & x2 & y2 & -> & (-> & E) & ->). cbn in E |- *. subst w. rewrite !app_nil_r. reflexivity.
      * intros ->. exists [], s, []. rewrite !app_nil_r. split; [reflexivity|]. exists [], s. split; [reflexivity|]. split; [auto|].
        exists []. rewrite app_nil_r. split; [reflexivity|]. exists [], []. auto.
  - apply (GO (One (Then Begin [] (spell s Nothing)))).
    + cbn. split; [exact I|]. split; [reflexivity|]. apply spell_ok; [exact F|exact I].
    + cbn [alternatives_text sequence_text atom_text flat_map app]. rewrite spell_text. cbn [sequence_text]. rewrite app_nil_r. reflexivity.
    + pose proof (no_nul_plain s N [94] []) as X. rewrite app_nil_r in X. apply X; [intros [Y|[]]; discriminate|intros []].
    + cbn [alternatives_re sequence_re fold_left atom_re]. unfold found. cbn [den]. setoid_rewrite spell_den. cbn [sequence_re den]. split.
      * intros (u & v & w & -> & x & y & -> & (-> & ->) & z & -> & ->). exists w. cbn. rewrite app_nil_r. reflexivity.
      * intros (b & ->). exists [], s, b. split; [reflexivity|]. exists [], s. split; [reflexivity|]. split; [auto|]. exists []. rewrite app_nil_r. auto.
  - apply (GO (One (spell s (Then End_ [] Nothing)))).
    + apply spell_ok; [exact F|cbn; auto].
    + cbn [alternatives_text]. rewrite spell_text. reflexivity.
    + apply (no_nul_plain s N [] [36]); [intros []|intros [X|[]]; discriminate].
    + cbn [alternatives_re]. unfold found. setoid_rewrite spell_den. cbn [sequence_re fold_left atom_re den]. split.
      * intros (u & v & w & -> & x & -> & x2 & y2 & -> & (-> & E) & ->). cbn in E. subst w. exists u. cbn. rewrite !app_nil_r. reflexivity.
      * intros (a & ->). exists a, s, []. rewrite app_nil_r. split; [reflexivity|]. exists []. rewrite app_nil_r. split; [reflexivity|]. exists [], []. auto.
Qed.
Print Assumptions C93_literal.
(** ** The constants of Configuration.cpp *)
Definition whole (f : bset) : re := Seq Bol (Seq (Rep (Chars f) 1 None) (Seq Eol Eps)).
Lemma times_chars f k : forall u v w, times (den (Chars f)) k u v w <-> length v = k /\ Forall (of_set f) v.
Proof.
  induction k as [|k IH]; intros u v w; cbn [times].
  - split; [intros ->; split; constructor|]. intros [L _]. destruct v; [reflexivity|discriminate].
  - split.
    + intros (x & y & -> & (c & -> & O) & T). apply IH in T. destruct T as [<- T]. split; [reflexivity|]. constructor; assumption.
    + intros [L F]. destruct v as [|c v]; [discriminate|]. injection L as L. inversion F; subst. exists [c], v. split; [reflexivity|].
      split; [exists c; auto|]. apply IH. auto.
Qed.
Lemma whole_found f text : found (whole f) text <-> text <> [] /\ Forall (of_set f) text.
Proof.
  unfold found, whole. cbn [den]. split.
  - intros (u & v & w & -> & x & y & -> & (-> & ->) & x2 & y2 & -> & (k & K & _ & T) & x3 & y3 & -> & (-> & E) & ->). apply times_chars in T. destruct T as [L T].
    cbn in E. subst w. cbn. rewrite !app_nil_r. split; [|exact T]. intros ->. cbn in L. lia.
  - intros [NE F]. exists [], text, []. rewrite app_nil_r. split; [reflexivity|]. exists [], text. split; [reflexivity|]. split; [auto|].
    exists text, []. rewrite app_nil_r. split; [reflexivity|]. split.
    + exists (length text). split; [destruct text; [congruence|cbn; lia]|]. split; [exact I|]. apply times_chars. auto.
    + exists [], []. auto.
Qed.
Lemma whole_plus p f (q : Z -> bool) text : regcomp p = Compiled (whole f) -> no_nul p -> no_nul text -> (forall c, of_set f c <-> q c = true) ->
  match_ (whole f) text = plus_of q text.
Proof.
  intros E N NT H. apply eq_true_iff_eq. rewrite (C93_match p _ text N NT E), whole_found. rewrite (plus_of_spec q (of_set f) text); [reflexivity|].
  intros c. rewrite H. reflexivity.
Qed.
Theorem C93_constants text : no_nul text ->
  (exists r, regcomp (lit "^[a-zA-Z0-9/_.-]+$") = Compiled r /\ match_ r text = plus_of path_char text) /\
  (exists r, regcomp (lit "^[a-zA-Z0-9_.-]+$") = Compiled r /\ match_ r text = plus_of host_char text) /\
  (exists r, regcomp (lit "^[0-9.-]+$") = Compiled r /\ match_ r text = plus_of float_char text) /\
  (exists r, regcomp (lit "^[0-9-]+$") = Compiled r /\ match_ r text = plus_of range_char text).
Proof.
  intros NT.
  assert (SET : forall l c, of_set (BSet false l) c <-> existsb (fun i => in_item i c) l = true).
  { intros l c. rewrite <- in_set_spec. unfold in_set. cbn [neg bitems]. rewrite xorb_false_l. reflexivity. }
  assert (NN : forall s, existsb (Z.eqb 0) s = false -> no_nul s).
  { intros s E I. assert (existsb (Z.eqb 0) s = true) by (apply existsb_exists; exists 0; auto). congruence. }
  repeat split.
  - exists (whole (BSet false [IRange 97 122; IRange 65 90; IRange 48 57; IChar 47; IChar 95; IChar 46; IChar 45])). split; [vm_compute; reflexivity|].
    apply (whole_plus (lit "^[a-zA-Z0-9/_.-]+$")); [vm_compute; reflexivity|apply NN; vm_compute; reflexivity|exact NT|].
    intros c. rewrite SET. cbn [existsb in_item]. unfold path_char, alnum. lia.
  - exists (whole (BSet false [IRange 97 122; IRange 65 90; IRange 48 57; IChar 95; IChar 46; IChar 45])). split; [vm_compute; reflexivity|].
    apply (whole_plus (lit "^[a-zA-Z0-9_.-]+$")); [vm_compute; reflexivity|apply NN; vm_compute; reflexivity|exact NT|].
    intros c. rewrite SET. cbn [existsb in_item]. unfold host_char, alnum. lia.
  - exists (whole (BSet false [IRange 48 57; IChar 46; IChar 45])). split; [vm_compute; reflexivity|].
    apply (whole_plus (lit "^[0-9.-]+$")); [vm_compute; reflexivity|apply NN; vm_compute; reflexivity|exact NT|].
    intros c. rewrite SET. cbn [existsb in_item]. unfold float_char, range_char. lia.
  - exists (whole (BSet false [IRange 48 57; IChar 45])). split; [vm_compute; reflexivity|].
    apply (whole_plus (lit "^[0-9-]+$")); [vm_compute; reflexivity|apply NN; vm_compute; reflexivity|exact NT|].
    intros c. rewrite SET. cbn [existsb in_item]. unfold range_char. lia.
Qed.
Print Assumptions C93_constants.
(** ** Keys with an expression *)
(** A STRING key accepts what has a part that matches the expression of the schema, and nothing if that is none. *)
Theorem C93_string other F S name vv val : declared S name STRING vv -> no_nul val -> no_nul vv -> ~ outside vv ->
  decides (isValidValue (regex other) F S name val) (exists c, alternatives_ok true c /\ alternatives_text c = vv /\ found (alternatives_re c) val).
Proof.
  intros D NV NP NO. destruct (C48_string (regex other) F S name vv val D NV NP) as (b & E & H). exists b. split; [exact E|]. rewrite H. unfold regex.
  pose proof (regcomp_spec vv NP) as SP. destruct (regcomp vv) as [r| |] eqn:EC.
  - destruct SP as (c & OK & ET & <-). pose proof (C93_match vv _ val NP NV EC) as M. unfold match_ in M. split.
    + intros X. injection X as X. exists c. split; [exact OK|]. split; [exact ET|]. apply M, X.
    + intros (c' & OK' & ET' & FO). f_equal. apply M. rewrite (C93_unique c c' OK OK' ltac:(congruence)). exact FO.
  - split; [discriminate|]. intros (c & OK & ET & _). contradiction (SP c OK ET).
  - destruct SP as [SP _]. contradiction.
Qed.
Print Assumptions C93_string.
(** A REGEX key accepts the expressions. *)
Theorem C93_regex_key other F S name vv val : declared S name REGEX vv -> no_nul val -> ~ outside val ->
  decides (isValidValue (regex other) F S name val) (exists c, alternatives_ok true c /\ alternatives_text c = val).
Proof.
  intros D NV NO. destruct (C48_regex (regex other) F S name vv val D NV) as (b & E & H). exists b. split; [exact E|]. rewrite H. unfold regex.
  pose proof (regcomp_spec val NV) as SP. destruct (regcomp val) as [r| |].
  - destruct SP as (c & OK & ET & _). split; [intros _; exists c; auto|discriminate].
  - split; [congruence|]. intros (c & OK & ET). contradiction (SP c OK ET).
  - destruct SP as [SP _]. contradiction.
Qed.
Print Assumptions C93_regex_key.
(** Defect: an expression without anchors accepts whatever contains a match. *)
Fixpoint free_re (r : re) : Prop :=
  match r with Eps | Chars _ => True | Bol | Eol => False | Seq a b | Alt a b => free_re a /\ free_re b | Rep a _ _ => free_re a end.
Lemma times_free (D : list Z -> list Z -> list Z -> Prop) : (forall u v w u' w', D u v w -> D u' v w') -> forall k u v w u' w', times D k u v w -> times D k u' v w'.
Proof.
  intros H k. induction k as [|k IH]; intros u v w u' w'; cbn [times]; [auto|].
  intros (x & y & -> & HD & T). exists x, y. split; [reflexivity|]. split; [eapply H, HD|eapply IH, T].
Qed.
Lemma den_free r : free_re r -> forall u v w u' w', den r u v w -> den r u' v w'.
Proof.
  induction r as [|f| | |a IHa b IHb|a IHa b IHb|a IH lo hi]; intros FR u v w u' w'; cbn [den free_re] in *; auto.
  - contradiction.
  - contradiction.
  - destruct FR as [FA FB]. intros (x & y & -> & A & B). exists x, y. split; [reflexivity|]. split; [eapply IHa; eassumption|eapply IHb; eassumption].
  - destruct FR as [FA FB]. intros [A|B]; [left; eapply IHa; eassumption|right; eapply IHb; eassumption].
  - intros (k & K1 & K2 & T). exists k. split; [exact K1|]. split; [exact K2|]. eapply times_free; [|exact T]. intros. eapply IH; eassumption.
Qed.
Theorem C93_unanchored_refuted other F S name vv val a b c : declared S name STRING vv -> no_nul (a ++ val ++ b) -> no_nul vv ->
  alternatives_ok true c -> alternatives_text c = vv -> free_re (alternatives_re c) ->
  isValidValue (regex other) F S name val = Ok true -> isValidValue (regex other) F S name (a ++ val ++ b) = Ok true.
Proof.
  intros D N NP OK ET FR H. assert (NV : no_nul val) by (intros I; apply N, in_app_iff; right; apply in_app_iff; left; exact I).
  assert (EC : regcomp vv = Compiled (alternatives_re c)) by (apply C93_compile; [exact NP|]; exists c; auto).
  destruct (C48_string (regex other) F S name vv val D NV NP) as (x & E & HX). rewrite H in E. injection E as <-. pose proof (proj1 HX eq_refl) as M.
  unfold regex in M. rewrite EC in M. injection M as M. apply (C93_match vv _ val NP NV EC) in M.
  destruct (C48_string (regex other) F S name vv (a ++ val ++ b) D N NP) as (y & E2 & HY). rewrite E2. f_equal. apply HY. unfold regex. rewrite EC. f_equal.
  apply (C93_match vv _ (a ++ val ++ b) NP N EC). destruct M as (u & v & w & -> & DV). exists (a ++ u), v, (w ++ b). split; [rewrite <- !app_assoc; reflexivity|].
  eapply den_free; eassumption.
Qed.
Print Assumptions C93_unanchored_refuted.

Definition matches (p text : list Z) : option bool := match regcomp p with Compiled r => Some (match_ r text) | _ => None end.
Example C93_ex :
  (* RegexpTest.cpp *)
  matches (lit "^[[:graph:]]+@[[:graph:]]+ ") (lit "dburgess@jcis.net test message") = Some true /\ matches (lit "^[[:graph:]]+@[[:graph:]]+ ") (lit "no address text message") = Some false /\
  matches (lit "^dburgess@") (lit "dburgess@jcis.net test message") = Some true /\ matches (lit "^dburgess@") (lit "no address text message") = Some false /\
  matches (lit "^(a|bc){2,3}$") (lit "abca") = Some true /\ matches (lit "^(a|bc){2,3}$") (lit "abcaa") = Some false /\ matches (lit "^[^]a-c]*$") (lit "xyz") = Some true /\ matches (lit "^[^]a-c]*$") (lit "x]") = Some false /\
  matches (lit "[0-9]+") (lit "abc1") = Some true /\ matches (lit "") (lit "x") = Some true /\ matches (lit "^\.?$") (lit ".") = Some true /\ matches (lit "a)") (lit "a)") = Some true /\ matches (lit "(()|a*)*b") (lit "aab") = Some true /\
  map regcomp [lit "*a"; lit "(a"; lit "[a"; lit "[b-a]"; lit "a{2,1}"; lit "a{,99999}"; lit "a{x}"; lit "^*"; lit "[[:foo:]]"] = repeat Invalid 9 /\
  map regcomp [lit "\w"; lit "(a)\1"; lit "[[.a.]]"; lit "[--z]"; lit "a{1\}"] = repeat Outside 5 /\
  Regexp (lit "(") = Abort.
Proof. vm_compute. repeat split. Qed.
