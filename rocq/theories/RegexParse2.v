(** regcomp reads exactly the well-formed expressions: alternatives, sequences and atoms. *)
From Verif Require Import Base BaseFacts UtilsModel UtilsSpec SqlModel SqlProofs ConfigModel ConfigSpec RegexModel RegexSpec RegexParse.
From Coq Require Import Lia.
Local Open Scope Z_scope.

Lemma gnu_iff c : gnu c = true <-> In c (lit "123456789<>bBwWsS`" ++ [39]).
Proof.
  unfold gnu. rewrite existsb_exists. split; [intros (x & I & E); apply Z.eqb_eq in E; subst; exact I|].
  intros I. exists c. split; [exact I|apply Z.eqb_refl].
Qed.
Lemma bracket_sound p :
  match bracket p with
  | Good (r, rest) => exists n l, items_ok true l /\ (n = false -> next l <> 94) /\ 91 :: p = atom_text (Bracket n l) ++ rest /\ r = Chars (BSet n l)
  | Bad => True
  | Beyond => outside p
  | Deep => False
  end.
Proof.
  unfold bracket. cbv zeta. set (p' := if begins 94 p then tl p else p).
  assert (EP : p = (if begins 94 p then [94] else []) ++ p') by (unfold p'; destruct (begins 94 p) eqn:B; [apply begins_tl, B|reflexivity]).
  pose proof (items_sound (S (length p')) true p') as H. destruct (items (S (length p')) true p') as [[l rest]| | |]; cbn [pbind].
  - destruct H as [H1 H2]. exists (begins 94 p), l. split; [exact H2|]. split; [|split; [|reflexivity]].
    + intros B N. assert (EQ : p = p') by (rewrite EP, B at 1; reflexivity). rewrite EQ, H1, next_begins, N in B. discriminate.
    + cbn [atom_text]. lits. cbn [app]. f_equal. rewrite EP at 1. rewrite H1. rewrite <- !app_assoc. reflexivity.
  - exact I.
  - rewrite EP. apply outside_app, H.
  - lia.
Qed.
Lemma bracket_complete n l rest : items_ok true l -> (n = false -> next l <> 94) ->
  bracket ((if n then [94] else []) ++ items_text l ++ 93 :: rest) = Good (Chars (BSet n l), rest).
Proof.
  intros OK N. unfold bracket. cbv zeta. set (q := items_text l ++ 93 :: rest).
  assert (B : begins 94 ((if n then [94] else []) ++ q) = n).
  { destruct n; [reflexivity|]. cbn [app]. unfold q. rewrite next_begins. apply Z.eqb_neq, N. reflexivity. }
  rewrite B. replace (if n then tl ((if n then [94] else []) ++ q) else (if n then [94] else []) ++ q) with q by (destruct n; reflexivity).
  unfold q at 2. rewrite items_complete; [reflexivity|exact OK|]. unfold q. rewrite app_length. pose proof (items_text_length l). lia.
Qed.
(** What is left for the caller. *)
Definition closes (nested : bool) (rest : list Z) : Prop := rest = [] \/ nested = true /\ begins 41 rest = true.
Definition stops_ (nested : bool) (rest : list Z) : Prop := begins 124 rest = true \/ closes nested rest.
Definition alts_claim (n : nat) : Prop := forall nested p,
  match alts n nested p with
  | Good (r, rest) => exists c, alternatives_ok (negb nested) c /\ p = alternatives_text c ++ rest /\ r = alternatives_re c /\ closes nested rest
  | Bad => True
  | Beyond => outside p
  | Deep => (n < 3 * length p + 3)%nat
  end.
Definition branch_claim (n : nat) : Prop := forall nested p,
  match branch n nested p with
  | Good (r, rest) => exists b, sequence_ok (negb nested) b /\ p = sequence_text b ++ rest /\ r = sequence_re b /\ stops_ nested rest
  | Bad => True
  | Beyond => outside p
  | Deep => (n < 3 * length p + 2)%nat
  end.
Definition expr_claim (n : nat) : Prop := forall nested c t, c <> 124 -> (c = 41 -> nested = false) ->
  match expr n c t with
  | Good (r, rest) => exists a q, atom_ok (negb nested) a /\ match a with Begin | End_ => q = [] | _ => Forall quant_ok q end /\
      c :: t = atom_text a ++ flat_map quant_text q ++ rest /\ r = fold_left repeated q (atom_re a)
  | Bad => True
  | Beyond => outside (c :: t)
  | Deep => (n <= 3 * length (c :: t))%nat
  end.
Lemma expr_step n : alts_claim n -> expr_claim (S n).
Proof.
  intros IH nested c t N124 N41. cbn [expr].
  destruct (Z.eqb_spec c 94) as [->|N94]; [exists Begin, []; cbn; auto|].
  destruct (Z.eqb_spec c 36) as [->|N36]; [exists End_, []; cbn; auto|].
  destruct ((c =? 42) || (c =? 43) || (c =? 63) || (c =? 123)) eqn:Q; [exact I|].
  apply orb_false_iff in Q. destruct Q as [Q Q4]. apply orb_false_iff in Q. destruct Q as [Q Q3]. apply orb_false_iff in Q. destruct Q as [Q1 Q2].
  apply Z.eqb_neq in Q1, Q2, Q3, Q4.
  match goal with |- match pbind ?X _ with _ => _ end => set (x := X);
    assert (HX : match x with
      | Good (r, rest) => exists a, atom_ok (negb nested) a /\ a <> Begin /\ a <> End_ /\ c :: t = atom_text a ++ rest /\ r = atom_re a
      | Bad => True | Beyond => outside (c :: t) | Deep => (S n <= 3 * length (c :: t))%nat end) end.
  { subst x. destruct (Z.eqb_spec c 40) as [->|N40].
    - specialize (IH true t). destruct (alts n true t) as [[r rest]| | |]; cbn [pbind].
      + destruct IH as (a & OK & -> & -> & [->|[_ B]]); [exact I|]. rewrite B. apply begins_tl in B. exists (Group a).
        split; [exact OK|]. split; [discriminate|]. split; [discriminate|]. split; [|reflexivity].
        cbn [atom_text]. lits. cbn [app]. rewrite <- app_assoc. cbn [app]. rewrite <- B. reflexivity.
      + exact I.
      + apply outside_cons, IH.
      + cbn [length]. lia.
    - destruct (Z.eqb_spec c 91) as [->|N91].
      + pose proof (bracket_sound t) as H. destruct (bracket t) as [[r rest]| | |]; [|exact I|apply outside_cons, H|contradiction].
        destruct H as (ng & l & OK & NX & E & ->). exists (Bracket ng l). split; [split; assumption|]. split; [discriminate|]. split; [discriminate|]. auto.
      + destruct (Z.eqb_spec c 92) as [->|N92].
        * destruct t as [|e t]; [exact I|]. destruct (gnu e) eqn:G.
          -- left. exists e. split; [apply gnu_iff, G|]. exists [], t. reflexivity.
          -- exists (Escaped e). split; [intros J; apply gnu_iff in J; congruence|]. split; [discriminate|]. split; [discriminate|]. auto.
        * destruct (Z.eqb_spec c 46) as [->|N46].
          -- exists Any. split; [exact I|]. split; [discriminate|]. split; [discriminate|]. auto.
          -- exists (Char c). split; [|split; [discriminate|split; [discriminate|auto]]]. split.
             ++ unfold special. lits. cbn [In]. intuition congruence.
             ++ intros E. rewrite (N41 E). reflexivity. }
  destruct x as [[r rest]| | |]; cbn [pbind]; try exact HX. destruct HX as (a & OK & NB & NE & E & ->).
  pose proof (quants_sound (S (length rest)) (atom_re a) rest) as H. destruct (quants (S (length rest)) (atom_re a) rest) as [[r' rest']| | |].
  - destruct H as (q & F & -> & -> & _). exists a, q. split; [exact OK|]. split; [destruct a; congruence|]. auto.
  - exact I.
  - rewrite E. apply outside_app, H.
  - lia.
Qed.
Lemma atom_text_length a : (1 <= length (atom_text a))%nat.
Proof. destruct a; cbn [atom_text]; lits; cbn [length app]; lia. Qed.
Lemma branch_step n : expr_claim n -> branch_claim n -> branch_claim (S n).
Proof.
  intros IE IB nested p. cbn [branch]. destruct p as [|c t].
  { exists Nothing. repeat split. right. left. reflexivity. }
  destruct ((c =? 124) || nested && (c =? 41)) eqn:E.
  { exists Nothing. split; [exact I|]. split; [reflexivity|]. split; [reflexivity|]. apply orb_true_iff in E. destruct E as [E|E].
    - left. exact E.
    - apply andb_true_iff in E. right. right. exact E. }
  apply orb_false_iff in E. destruct E as [E1 E2]. apply Z.eqb_neq in E1.
  assert (N41 : c = 41 -> nested = false) by (intros ->; destruct nested; [discriminate|reflexivity]).
  specialize (IE nested c t E1 N41). destruct (expr n c t) as [[r rest]| | |]; cbn [pbind]; [|exact I|exact IE|lia].
  destruct IE as (a & q & OK & F & E & ->). specialize (IB nested rest). destruct (branch n nested rest) as [[r rest']| | |]; cbn [pbind].
  - destruct IB as (b & OKb & -> & -> & S). exists (Then a q b). split; [repeat split; assumption|]. split; [|auto]. cbn [sequence_text]. rewrite <- !app_assoc. exact E.
  - exact I.
  - rewrite E. apply outside_app, outside_app, IB.
  - rewrite E, !app_length. pose proof (atom_text_length a). lia.
Qed.
Lemma alts_step n : branch_claim n -> alts_claim n -> alts_claim (S n).
Proof.
  intros IB IA nested p. cbn [alts]. specialize (IB nested p). destruct (branch n nested p) as [[r rest]| | |]; cbn [pbind]; [|exact I|exact IB|lia].
  destruct IB as (b & OK & -> & -> & S). destruct (begins 124 rest) eqn:B.
  - apply begins_tl in B. set (t := tl rest) in *. rewrite B. specialize (IA nested t). destruct (alts n nested t) as [[r rest']| | |]; cbn [pbind].
    + destruct IA as (c & OKc & -> & -> & C). exists (More b c). split; [split; assumption|]. split; [|auto]. cbn [alternatives_text]. rewrite <- app_assoc. reflexivity.
    + exact I.
    + apply outside_app, outside_cons, IA.
    + rewrite app_length. cbn [length]. lia.
  - exists (One b). split; [exact OK|]. split; [reflexivity|]. split; [reflexivity|]. destruct S as [S|S]; [congruence|exact S].
Qed.
Lemma parse_sound n : alts_claim n /\ branch_claim n /\ expr_claim n.
Proof.
  induction n as [|n (IA & IB & IE)].
  - repeat split.
    + intros nested p. cbn [alts]. lia.
    + intros nested p. cbn [branch]. lia.
    + intros nested c t _ _. cbn [expr length]. lia.
  - split; [apply alts_step; assumption|]. split; [apply branch_step; assumption|apply expr_step; assumption].
Qed.

(** ** Everything well-formed is read *)
Definition atom_claim (top : bool) (a : atom) : Prop :=
  exists c t, atom_text a = c :: t /\ c <> 124 /\ (top = false -> c <> 41) /\ repeats (c :: t) = false /\
  forall n q rest, match a with Begin | End_ => q = [] | _ => Forall quant_ok q end -> repeats rest = false -> (3 * length (atom_text a) <= n)%nat ->
    expr n c (t ++ flat_map quant_text q ++ rest) = Good (fold_left repeated q (atom_re a), rest).
Lemma repeats_stop top rest : stops_ (negb top) rest -> repeats rest = false.
Proof.
  unfold repeats. intros [B|[->|[_ B]]]; [|reflexivity|]; apply begins_iff in B; destruct B as (t & ->); reflexivity.
Qed.
Lemma expr_plain n c t r rest q : c <> 94 -> c <> 36 -> c <> 42 -> c <> 43 -> c <> 63 -> c <> 123 -> Forall quant_ok q -> repeats rest = false ->
  (if c =? 40 then pbind (alts n true (t ++ flat_map quant_text q ++ rest)) (fun '(a, rest) => if begins 41 rest then Good (a, tl rest) else Bad)
   else if c =? 91 then bracket (t ++ flat_map quant_text q ++ rest)
   else if c =? 92 then match t ++ flat_map quant_text q ++ rest with [] => Bad | e :: t => if gnu e then Beyond else Good (one e, t) end
   else if c =? 46 then Good (Chars (BSet true []), t ++ flat_map quant_text q ++ rest)
   else Good (one c, t ++ flat_map quant_text q ++ rest)) = Good (r, flat_map quant_text q ++ rest) ->
  expr (S n) c (t ++ flat_map quant_text q ++ rest) = Good (fold_left repeated q r, rest).
Proof.
  intros N1 N2 N3 N4 N5 N6 F R E. cbn [expr]. rewrite E. apply Z.eqb_neq in N1, N2, N3, N4, N5, N6. rewrite N1, N2, N3, N4, N5, N6. cbn [orb pbind].
  apply quants_complete; [exact F|exact R|]. rewrite app_length. pose proof (quants_text_length q). lia.
Qed.
Theorem parse_complete :
  (forall c top rest n, alternatives_ok top c -> closes (negb top) rest -> (3 * length (alternatives_text c) + 3 <= n)%nat ->
     alts n (negb top) (alternatives_text c ++ rest) = Good (alternatives_re c, rest)) /\
  (forall b top rest n, sequence_ok top b -> stops_ (negb top) rest -> (3 * length (sequence_text b) + 2 <= n)%nat ->
     branch n (negb top) (sequence_text b ++ rest) = Good (sequence_re b, rest) /\ repeats (sequence_text b ++ rest) = false) /\
  (forall a top, atom_ok top a -> atom_claim top a).
Proof.
  apply syntax_ind.
  - (* One *) intros b IH top rest n OK C L. cbn [alternatives_text] in *. destruct n as [|n]; [lia|]. cbn [alts alternatives_re].
    destruct (IH top rest n OK (or_intror C) ltac:(lia)) as [-> _]. cbn [pbind].
    replace (begins 124 rest) with false; [reflexivity|]. destruct C as [->|[_ B]]; [reflexivity|]. apply begins_iff in B. destruct B as (t & ->). reflexivity.
  - (* More *) intros b IHb c IHc top rest n [OKb OKc] C L. cbn [alternatives_text] in *. rewrite app_length in L. cbn [length] in L. destruct n as [|n]; [lia|].
    cbn [alts alternatives_re]. rewrite <- app_assoc. cbn [app].
    destruct (IHb top (124 :: alternatives_text c ++ rest) n OKb (or_introl eq_refl) ltac:(lia)) as [-> _]. cbn [pbind begins tl]. change (124 =? 124) with true. cbn iota.
    rewrite IHc by (assumption || lia). reflexivity.
  - (* Nothing *) intros top rest n _ S L. cbn [sequence_text app sequence_re] in *. split; [|eapply repeats_stop, S].
    destruct n as [|n]; [lia|]. cbn [branch]. destruct rest as [|c t]; [reflexivity|].
    replace ((c =? 124) || negb top && (c =? 41)) with true; [reflexivity|]. symmetry. apply orb_true_iff. destruct S as [S|[S|[S1 S2]]]; [left; exact S|discriminate|].
    right. rewrite S1. exact S2.
  - (* Then *) intros a IHa q b IHb top rest n (OKa & Q & OKb) S L. cbn [sequence_text sequence_re] in *. rewrite !app_length in L.
    pose proof (atom_text_length a) as LA. destruct n as [|n]; [lia|].
    destruct (IHa top OKa) as (c & t & E & N124 & N41 & R & EX). destruct (IHb top rest n OKb S ltac:(lia)) as [BR RB].
    rewrite <- !app_assoc, E. cbn [app branch]. split; [|exact R].
    replace ((c =? 124) || negb top && (c =? 41)) with false.
    2:{ symmetry. apply orb_false_iff. split; [apply Z.eqb_neq, N124|]. destruct top; [reflexivity|]. apply Z.eqb_neq, N41. reflexivity. }
    rewrite EX by (assumption || lia). cbn [pbind]. rewrite BR. reflexivity.
  - (* Char *) intros c top [NS N41]. unfold special in NS. lits. cbn [In] in NS. exists c, []. cbn [atom_text]. split; [reflexivity|]. split; [intuition congruence|].
    split; [intros -> ->; specialize (N41 eq_refl); discriminate|]. split.
    + unfold repeats. cbn [begins]. repeat (apply orb_false_iff; split); apply Z.eqb_neq; intuition congruence.
    + intros n q rest F R L. cbn [length] in L. destruct n as [|n]; [lia|]. apply expr_plain; try assumption; try (intuition congruence).
      cbn [app]. repeat match goal with |- context [c =? ?k] => replace (c =? k) with false by (symmetry; apply Z.eqb_neq; intuition congruence) end. reflexivity.
  - (* Escaped *) intros c top NG. exists 92, [c]. cbn [atom_text]. split; [reflexivity|]. split; [discriminate|]. split; [discriminate|]. split; [reflexivity|].
    intros n q rest F R L. cbn [length] in L. destruct n as [|n]; [lia|]. apply expr_plain; try assumption; try discriminate.
    cbn [app]. change (92 =? 40) with false. change (92 =? 91) with false. change (92 =? 92) with true. cbn iota.
    destruct (gnu c) eqn:G; [apply gnu_iff in G; contradiction|reflexivity].
  - (* Any *) intros top _. exists 46, []. cbn [atom_text]. lits. split; [reflexivity|]. split; [discriminate|]. split; [discriminate|]. split; [reflexivity|].
    intros n q rest F R L. cbn [length] in L. destruct n as [|n]; [lia|]. apply expr_plain; try assumption; try discriminate. reflexivity.
  - (* Bracket *) intros ng l top [OK NX]. exists 91, ((if ng then [94] else []) ++ items_text l ++ [93]). cbn [atom_text]. lits. cbn [app].
    split; [reflexivity|]. split; [discriminate|]. split; [discriminate|]. split; [reflexivity|].
    intros n q rest F R L. cbn [length] in L. destruct n as [|n]; [lia|]. apply expr_plain; try assumption; try discriminate.
    change (91 =? 40) with false. change (91 =? 91) with true. cbn iota. rewrite <- !app_assoc. cbn [app]. apply bracket_complete; assumption.
  - (* Group *) intros a IH top OK. exists 40, (alternatives_text a ++ [41]). cbn [atom_text]. lits. cbn [app].
    split; [reflexivity|]. split; [discriminate|]. split; [discriminate|]. split; [reflexivity|].
    intros n q rest F R L. cbn [length] in L. rewrite app_length in L. cbn [length] in L. destruct n as [|n]; [lia|]. apply expr_plain; try assumption; try discriminate.
    change (40 =? 40) with true. cbn iota. rewrite <- !app_assoc. cbn [app]. change true with (negb false).
    rewrite (IH false (41 :: flat_map quant_text q ++ rest) n OK); [reflexivity| |lia]. right. split; reflexivity.
  - (* Begin *) intros top _. exists 94, []. cbn [atom_text]. lits. split; [reflexivity|]. split; [discriminate|]. split; [discriminate|]. split; [reflexivity|].
    intros n q rest -> R L. cbn [length] in L. destruct n as [|n]; [lia|]. reflexivity.
  - (* End *) intros top _. exists 36, []. cbn [atom_text]. lits. split; [reflexivity|]. split; [discriminate|]. split; [discriminate|]. split; [reflexivity|].
    intros n q rest -> R L. cbn [length] in L. destruct n as [|n]; [lia|]. reflexivity.
Qed.

(** ** regcomp *)
Theorem regcomp_spec p : no_nul p ->
  match regcomp p with
  | Compiled r => exists c, alternatives_ok true c /\ alternatives_text c = p /\ alternatives_re c = r
  | Invalid => forall c, alternatives_ok true c -> alternatives_text c <> p
  | Outside => outside p /\ forall c, alternatives_ok true c -> alternatives_text c <> p
  end.
Proof.
  intros NN. unfold regcomp. rewrite (c_str_id p NN). cbv zeta. set (n := (3 * length p + 3)%nat).
  assert (CO : forall c, alternatives_ok true c -> alternatives_text c = p -> alts n false p = Good (alternatives_re c, [])).
  { intros c OK <-. destruct parse_complete as (PC & _ & _). specialize (PC c true [] n OK (or_introl eq_refl)). rewrite app_nil_r in PC. apply PC. unfold n. lia. }
  pose proof (proj1 (parse_sound n) false p) as SO. destruct (alts n false p) as [[r [|x rest]]| | |].
  - destruct SO as (c & OK & E & -> & _). rewrite app_nil_r in E. exists c. auto.
  - destruct SO as (_ & _ & _ & _ & [C|[C _]]); discriminate.
  - intros c OK E. specialize (CO c OK E). discriminate.
  - split; [exact SO|]. intros c OK E. specialize (CO c OK E). discriminate.
  - unfold n in SO. lia.
Qed.
