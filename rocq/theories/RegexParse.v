(** regcomp reads exactly the well-formed expressions. *)
From Verif Require Import Base BaseFacts UtilsModel SqlModel SqlProofs ConfigModel ConfigSpec RegexModel RegexSpec.
From Coq Require Import Lia.
Local Open Scope Z_scope.

Ltac lits := repeat match goal with
  | |- context [lit ?s] => let v := eval vm_compute in (lit s) in change (lit s) with v
  | H : context [lit ?s] |- _ => let v := eval vm_compute in (lit s) in change (lit s) with v in H
  end.
Lemma begins_iff c p : begins c p = true <-> exists t, p = c :: t.
Proof.
  destruct p as [|d t]; cbn; [split; [discriminate|intros (t & E); discriminate]|].
  rewrite Z.eqb_eq. split; [intros ->; eauto|intros (u & E); injection E as -> _; reflexivity].
Qed.
Lemma begins_tl c p : begins c p = true -> p = c :: tl p.
Proof. intros H. apply begins_iff in H. destruct H as (t & ->). reflexivity. Qed.

(** ** Bracket expressions *)
Lemma class_of_spec n k : class_of n = Some k <-> n = class_text k.
Proof.
  unfold class_of. split.
  - repeat (match goal with |- context [weqb n ?s] => destruct (weqb n s) eqn:W; [apply weqb_iff in W; intros E; injection E as <-; exact W|clear W] end).
    discriminate.
  - intros ->. destruct k; vm_compute; reflexivity.
Qed.
Lemma class_name_sound p : forall acc n t, class_name p acc = Some (n, t) -> exists s, n = rev acc ++ s /\ p = s ++ 58 :: 93 :: t.
Proof.
  induction p as [|c p IH]; intros acc n t; cbn [class_name]; [discriminate|]. destruct ((c =? 58) && begins 93 p) eqn:E.
  - apply andb_true_iff in E. destruct E as [E1 E2]. apply Z.eqb_eq in E1. apply begins_tl in E2. intros H. injection H as <- <-.
    exists []. rewrite app_nil_r, E1. cbn [app]. rewrite <- E2. auto.
  - intros H. apply IH in H. destruct H as (s & -> & ->). exists (c :: s). cbn. rewrite <- app_assoc. auto.
Qed.
Lemma class_name_complete s t : ~ In 58 s -> forall acc, class_name (s ++ 58 :: 93 :: t) acc = Some (rev acc ++ s, t).
Proof.
  induction s as [|c s IH]; intros N acc.
  - cbn. rewrite app_nil_r. reflexivity.
  - cbn [app class_name]. replace (c =? 58) with false by (symmetry; apply Z.eqb_neq; intros ->; apply N; left; reflexivity).
    cbn [andb]. rewrite IH by (intros I; apply N; right; exact I). cbn [rev]. rewrite <- app_assoc. reflexivity.
Qed.
Lemma class_text_plain k : ~ In 58 (class_text k).
Proof. intros I. destruct k; vm_compute in I; intuition discriminate. Qed.
Lemma next_spec l rest : exists t, items_text l ++ 93 :: rest = next l :: t.
Proof. destruct l as [|[c|a b|k] l]; cbn [items_text flat_map item_text next app]; [eauto|eauto|eauto|]. lits. cbn [app]. eauto. Qed.
Lemma next_begins c l rest : begins c (items_text l ++ 93 :: rest) = (next l =? c).
Proof. destruct (next_spec l rest) as (t & ->). reflexivity. Qed.
Lemma next_of l rest c t : items_text l ++ 93 :: rest = c :: t -> next l = c.
Proof. destruct (next_spec l rest) as (u & ->). intros E. injection E as -> _. reflexivity. Qed.
Lemma has_app p q x : has p x -> has (q ++ p) x.
Proof. intros (a & b & ->). exists (q ++ a), b. rewrite <- app_assoc. reflexivity. Qed.
Lemma outside_app p q : outside p -> outside (q ++ p).
Proof.
  intros [(c & I & H)|[H|[H|[H|(x & H & N)]]]].
  - left. exists c. split; [exact I|apply has_app, H].
  - right; left. apply has_app, H.
  - right; right; left. apply has_app, H.
  - right; right; right; left. apply has_app, H.
  - right; right; right; right. exists x. split; [apply has_app, H|exact N].
Qed.
Lemma outside_cons c p : outside p -> outside (c :: p).
Proof. apply (outside_app p [c]). Qed.
Lemma has_here x b : has (x ++ b) x.
Proof. exists [], b. reflexivity. Qed.

Lemma items_sound n : forall first p,
  match items n first p with
  | Good (l, rest) => p = items_text l ++ 93 :: rest /\ items_ok first l
  | Bad => True
  | Beyond => outside p
  | Deep => (n <= length p)%nat
  end.
Proof.
  induction n as [|n IH]; intros first p; cbn [items]; [lia|]. destruct p as [|c t]; [exact I|].
  destruct ((c =? 93) && negb first) eqn:E1.
  { apply andb_true_iff in E1. destruct E1 as [E1 E2]. apply Z.eqb_eq in E1. apply negb_true_iff in E2. subst. cbn. auto. }
  destruct ((c =? 91) && (begins 46 t || begins 61 t)) eqn:E2.
  { apply andb_true_iff in E2. destruct E2 as [E2 E3]. apply Z.eqb_eq in E2. apply orb_true_iff in E3. subst c.
    destruct E3 as [E3|E3]; apply begins_tl in E3; rewrite E3; [right; left|right; right; left]; lits; exists [], (tl t); reflexivity. }
  destruct ((c =? 91) && begins 58 t) eqn:E3.
  { apply andb_true_iff in E3. destruct E3 as [E3 E4]. apply Z.eqb_eq in E3. apply begins_tl in E4. subst c.
    destruct (class_name (tl t) []) as [[nm t']|] eqn:E5; [|exact I]. destruct (class_of nm) as [k|] eqn:E6; [|exact I].
    apply class_of_spec in E6. apply class_name_sound in E5. destruct E5 as (s & -> & E5). cbn [rev app] in E6. subst s.
    specialize (IH false t'). destruct (items n false t') as [[l rest]| | |]; cbn [pbind].
    - destruct IH as [IH1 IH2]. split; [|cbn; auto]. cbn [items_text flat_map item_text]. lits. cbn [app]. rewrite E4, E5, IH1, <- !app_assoc. reflexivity.
    - exact I.
    - rewrite E4, E5. apply outside_cons, outside_cons, outside_app, outside_cons, outside_cons, IH.
    - rewrite E4, E5. cbn [length]. rewrite app_length. cbn [length]. lia. }
  destruct ((c =? 45) && begins 45 t) eqn:E4.
  { apply andb_true_iff in E4. destruct E4 as [E4 E5]. apply Z.eqb_eq in E4. apply begins_tl in E5. subst c. rewrite E5.
    right; right; right; left. exists [], (tl t). reflexivity. }
  destruct ((c =? 45) && negb first) eqn:E5.
  { apply andb_true_iff in E5. destruct E5 as [E5 E6]. apply Z.eqb_eq in E5. subst c. destruct (begins 93 t) eqn:E7; [|exact I].
    apply begins_tl in E7. split; [cbn; rewrite <- E7; reflexivity|]. cbn. intuition; try discriminate. }
  assert (C93 : c = 93 -> first = true) by (intros ->; destruct first; [reflexivity|discriminate]).
  assert (CHAR : match pbind (items n false t) (fun '(l, rest) => Good (IChar c :: l, rest)) with
                 | Good (l, rest) => c :: t = items_text l ++ 93 :: rest /\ items_ok first l
                 | Bad => True | Beyond => outside (c :: t) | Deep => (S n <= length (c :: t))%nat end).
  { specialize (IH false t). destruct (items n false t) as [[l rest]| | |]; cbn [pbind].
    - destruct IH as [IH1 IH2]. split; [rewrite IH1; reflexivity|]. split; [|exact IH2]. split; [exact C93|]. split.
      + intros ->. cbn in E2, E3. rewrite IH1, next_begins in E3. rewrite IH1, !next_begins in E2. apply orb_false_iff in E2. destruct E2 as [E21 E22].
        apply Z.eqb_neq in E21, E22, E3. repeat split; assumption.
      + intros ->. cbn in E4, E5. rewrite IH1, next_begins in E4. apply Z.eqb_neq in E4. split; [exact E4|]. left. destruct first; [reflexivity|discriminate].
    - exact I.
    - apply outside_cons, IH.
    - cbn [length]. lia. }
  destruct (begins 45 t) eqn:E6; [|exact CHAR]. pose proof (begins_tl _ _ E6) as E7. destruct (tl t) as [|e t'] eqn:E8; [exact CHAR|].
  destruct (e =? 93) eqn:F1; [exact CHAR|].
  destruct (e =? 45) eqn:F2.
  { apply Z.eqb_eq in F2. subst e. rewrite E7. right; right; right; left. exists [c], t'. reflexivity. }
  destruct ((e =? 91) && (begins 46 t' || begins 61 t')) eqn:F3.
  { apply andb_true_iff in F3. destruct F3 as [F3 F4]. apply Z.eqb_eq in F3. apply orb_true_iff in F4. subst e. rewrite E7.
    destruct F4 as [F4|F4]; apply begins_tl in F4; rewrite F4; [right; left|right; right; left]; lits; exists [c; 45], (tl t'); reflexivity. }
  destruct ((e =? 91) && begins 58 t') eqn:F4; [exact I|]. destruct (c <=? e) eqn:F5; [|exact I].
  apply Z.leb_le in F5. apply Z.eqb_neq in F1, F2.
  specialize (IH false t'). destruct (items n false t') as [[l rest]| | |]; cbn [pbind].
  - destruct IH as [IH1 IH2]. split; [rewrite E7, IH1; reflexivity|]. split; [|exact IH2]. repeat split; try assumption.
    + intros ->. destruct first; discriminate.
    + subst e. cbn in F3. rewrite IH1, !next_begins in F3. apply orb_false_iff in F3. destruct F3 as [F3 _]. apply Z.eqb_neq in F3. exact F3.
    + subst e. cbn in F4. rewrite IH1, next_begins in F4. apply Z.eqb_neq in F4. exact F4.
    + subst e. cbn in F3. rewrite IH1, !next_begins in F3. apply orb_false_iff in F3. destruct F3 as [_ F3]. apply Z.eqb_neq in F3. exact F3.
  - exact I.
  - rewrite E7. apply outside_cons, outside_cons, outside_cons, IH.
  - rewrite E7. cbn [length]. lia.
Qed.
Lemma items_complete l : forall n first rest, items_ok first l -> (length l < n)%nat -> items n first (items_text l ++ 93 :: rest) = Good (l, rest).
Proof.
  induction l as [|i l IH]; intros n first rest OK N; (destruct n as [|n]; [lia|]).
  - cbn [items_ok] in OK. subst first. reflexivity.
  - cbn [length] in N. destruct OK as [O1 O2]. assert (IHl := IH n false rest O2 ltac:(lia)). clear IH.
    destruct i as [c|a b|k]; cbn [items_text flat_map item_text]; fold (items_text l); rewrite <- app_assoc; cbn [app items].
    + destruct O1 as (R1 & R2 & R3). set (t := items_text l ++ 93 :: rest) in *.
      assert (B : forall x, begins x t = (next l =? x)) by (intros x; apply next_begins).
      destruct (Z.eqb_spec c 93) as [->|N93]; [rewrite (R1 eq_refl)|]; cbn [andb negb].
      * change (93 =? 91) with false. change (93 =? 45) with false. cbn [andb]. destruct (begins 45 t) eqn:E.
        -- destruct l as [|[d|d e|k] l]; rewrite B in E; cbn [next] in E; apply Z.eqb_eq in E; subst.
           ++ discriminate.
           ++ destruct O2 as [(_ & _ & O2) _]. destruct (O2 eq_refl) as [_ [X| ->]]; [discriminate|]. unfold t in *. cbn [items_text flat_map item_text app tl] in *. change (93 =? 93) with true. cbn [begins] in *. cbn iota. rewrite IHl. reflexivity.
           ++ destruct O2 as [(_ & O2 & _) _]. congruence.
           ++ discriminate.
        -- rewrite IHl. reflexivity.
      * destruct (Z.eqb_spec c 91) as [->|N91]; cbn [andb].
        -- destruct (R2 eq_refl) as (S1 & S2 & S3). rewrite !B. apply Z.eqb_neq in S1, S2, S3. rewrite S1, S2, S3. cbn [orb]. change (91 =? 45) with false. cbn [andb].
           destruct (next l =? 45) eqn:E.
           ++ destruct l as [|[d|d e|k] l]; cbn [next] in E; apply Z.eqb_eq in E; subst.
              ** discriminate.
              ** destruct O2 as [(_ & _ & O2) _]. destruct (O2 eq_refl) as [_ [X| ->]]; [discriminate|]. unfold t in *. cbn [items_text flat_map item_text app tl] in *. change (93 =? 93) with true. cbn iota. rewrite IHl. reflexivity.
              ** destruct O2 as [(_ & O2 & _) _]. congruence.
              ** discriminate.
           ++ rewrite IHl. reflexivity.
        -- destruct (Z.eqb_spec c 45) as [->|N45]; cbn [andb].
           ++ destruct (R3 eq_refl) as [S1 S2]. rewrite !B. apply Z.eqb_neq in S1. rewrite S1. destruct first; cbn [negb].
              ** rewrite IHl. reflexivity.
              ** destruct S2 as [X| ->]; [discriminate|]. reflexivity.
           ++ rewrite !B. destruct (next l =? 45) eqn:E.
              ** destruct l as [|[d|d e|k] l]; cbn [next] in E; apply Z.eqb_eq in E; subst.
                 --- discriminate.
                 --- destruct O2 as [(_ & _ & O2) _]. destruct (O2 eq_refl) as [_ [X| ->]]; [discriminate|]. unfold t in *. cbn [items_text flat_map item_text app tl] in *. change (93 =? 93) with true. cbn iota. rewrite IHl. reflexivity.
                 --- destruct O2 as [(_ & O2 & _) _]. congruence.
                 --- discriminate.
              ** rewrite IHl. reflexivity.
    + destruct O1 as (R1 & R2 & R3 & R4 & R5 & R6). set (t := items_text l ++ 93 :: rest) in *.
      assert (B : forall x, begins x t = (next l =? x)) by (intros x; apply next_begins). cbn [begins tl].
      replace ((a =? 93) && negb first) with false by (symmetry; destruct (Z.eqb_spec a 93) as [->|]; [rewrite (R5 eq_refl)|]; reflexivity).
      change (45 =? 46) with false. change (45 =? 61) with false. change (45 =? 58) with false. cbn [orb]. rewrite !andb_false_r.
      replace (a =? 45) with false by (symmetry; apply Z.eqb_neq; exact R2). cbn [andb]. change (45 =? 45) with true. cbn iota.
      replace (b =? 93) with false by (symmetry; apply Z.eqb_neq; exact R4). replace (b =? 45) with false by (symmetry; apply Z.eqb_neq; exact R3).
      rewrite !B. replace (a <=? b) with true by (symmetry; apply Z.leb_le; exact R1). destruct (Z.eqb_spec b 91) as [->|N91]; cbn [andb].
      * destruct (R6 eq_refl) as (S1 & S2 & S3). apply Z.eqb_neq in S1, S2, S3. rewrite S1, S2, S3. cbn [orb]. rewrite IHl. reflexivity.
      * rewrite IHl. reflexivity.
    + lits. cbn [app]. change (91 =? 93) with false. change (91 =? 91) with true. cbn [begins andb]. change (58 =? 46) with false. change (58 =? 61) with false. change (58 =? 58) with true. cbn [orb tl].
      rewrite <- !app_assoc. cbn [app]. rewrite class_name_complete by apply class_text_plain. cbn [rev app].
      replace (class_of (class_text k)) with (Some k) by (symmetry; apply class_of_spec; reflexivity). rewrite IHl. reflexivity.
Qed.
Lemma items_text_length l : (length l <= length (items_text l))%nat.
Proof.
  induction l as [|i l IH]; [cbn; lia|]. change (items_text (i :: l)) with (item_text i ++ items_text l). rewrite app_length.
  destruct i as [c|a b|k]; cbn [item_text length]; [lia|lia|]. lits. cbn [app length]. lia.
Qed.

(** ** Intervals and repetitions *)
Definition digit (c : Z) : Prop := 48 <= c <= 57.
Lemma value_cons c s : value (c :: s) = (c - 48) * 10 ^ Z.of_nat (length s) + value s.
Proof. unfold value. cbn [map positional]. rewrite map_length. reflexivity. Qed.
Lemma value_nonneg s : Forall digit s -> 0 <= value s.
Proof.
  induction 1 as [|c s D _ IH]; [cbn; lia|]. rewrite value_cons. unfold digit in D.
  pose proof (Z.pow_pos_nonneg 10 (Z.of_nat (length s)) ltac:(lia) ltac:(lia)). nia.
Qed.
(** What is read from a number [num] on. *)
Definition total (num : Z) (s : list Z) : Z :=
  match s with [] => num | _ => Z.min 32768 ((if num =? -1 then 0 else num) * 10 ^ Z.of_nat (length s) + value s) end.
Definition step (num c : Z) : Z := if (c <? 48) || (57 <? c) || (num =? -2) then -2 else if num =? -1 then c - 48 else Z.min 32768 (num * 10 + (c - 48)).
Lemma step_digit num c : digit c -> -1 <= num <= 32768 -> step num c = if num =? -1 then c - 48 else Z.min 32768 (num * 10 + (c - 48)).
Proof.
  intros D B. unfold digit in D. unfold step. replace ((c <? 48) || (57 <? c) || (num =? -2)) with false; [reflexivity|].
  symmetry. apply orb_false_iff. split; [apply orb_false_iff; split; apply Z.ltb_ge; lia|apply Z.eqb_neq; lia].
Qed.
Lemma step_range num c : digit c -> -1 <= num <= 32768 -> 0 <= step num c <= 32768.
Proof. intros D B. rewrite step_digit by assumption. unfold digit in D. destruct (Z.eqb_spec num (-1)); lia. Qed.
Lemma total_step num c s : digit c -> Forall digit s -> -1 <= num <= 32768 -> total (step num c) s = total num (c :: s).
Proof.
  intros D F B. pose proof (step_range num c D B) as R. rewrite step_digit in * by assumption. unfold digit in D. pose proof (value_nonneg s F) as V.
  unfold total. rewrite value_cons. cbn [length]. rewrite Nat2Z.inj_succ, Z.pow_succ_r by lia. destruct s as [|d s].
  - change (value []) with 0. change (Z.of_nat (length (@nil Z))) with 0. rewrite Z.pow_0_r. destruct (Z.eqb_spec num (-1)); lia.
  - set (k := length (d :: s)) in *. pose proof (Z.pow_pos_nonneg 10 (Z.of_nat k) ltac:(lia) ltac:(lia)) as K.
    set (y := 10 ^ Z.of_nat k) in *. set (v := value (d :: s)) in *.
    replace ((if num =? -1 then c - 48 else Z.min 32768 (num * 10 + (c - 48))) =? -1) with false by (symmetry; apply Z.eqb_neq; destruct (Z.eqb_spec num (-1)); lia).
    destruct (Z.eqb_spec num (-1)) as [E|E].
    + first [ring|f_equal; ring].
    + destruct (Z.min_spec 32768 (num * 10 + (c - 48))) as [[M ->]|[M ->]].
      * rewrite !Z.min_l; nia.
      * f_equal. ring.
Qed.
Lemma step_bad num c : step num c = -2 \/ digit c /\ num <> -2.
Proof.
  unfold step, digit. destruct ((c <? 48) || (57 <? c) || (num =? -2)) eqn:E; [left; reflexivity|]. right.
  apply orb_false_iff in E. destruct E as [E E3]. apply orb_false_iff in E. destruct E as [E1 E2]. apply Z.ltb_ge in E1, E2. apply Z.eqb_neq in E3. lia.
Qed.
Lemma number_step c t num : number (c :: t) num = if (c =? 125) || (c =? 44) then Good (num, c, t) else if c =? 92 then Beyond else number t (step num c).
Proof. reflexivity. Qed.
Lemma number_sound p : forall num, -2 <= num <= 32768 ->
  match number p num with
  | Good (v, d, t) => exists s, p = s ++ d :: t /\ (d = 125 \/ d = 44) /\ ~ In 125 s /\ (v = -2 \/ Forall digit s /\ num <> -2 /\ v = total num s)
  | Bad => True
  | Beyond => exists x b, p = x ++ 92 :: b /\ ~ In 125 x
  | Deep => False
  end.
Proof.
  induction p as [|c p IH]; intros num B; [exact I|]. rewrite number_step. destruct ((c =? 125) || (c =? 44)) eqn:E.
  - apply orb_true_iff in E. rewrite !Z.eqb_eq in E. exists []. split; [reflexivity|]. split; [exact E|]. split; [intros []|].
    destruct (Z.eq_dec num (-2)) as [->|N]; [left; reflexivity|right]. auto.
  - apply orb_false_iff in E. destruct E as [E1 E2]. apply Z.eqb_neq in E1. destruct (Z.eqb_spec c 92) as [->|N].
    + exists [], p. split; [reflexivity|intros []].
    + assert (B2 : -2 <= step num c <= 32768).
      { destruct (step_bad num c) as [->|[D M]]; [lia|]. pose proof (step_range num c D ltac:(lia)). lia. }
      specialize (IH (step num c) B2). destruct (number p (step num c)) as [[[v d] t]| | |].
      * destruct IH as (s & -> & D & N1 & V). exists (c :: s). split; [reflexivity|]. split; [exact D|]. split; [intros [X|X]; [congruence|tauto]|].
        destruct V as [V|(V1 & V2 & V3)]; [left; exact V|right]. destruct (step_bad num c) as [X|[D1 D2]]; [congruence|].
        split; [constructor; assumption|]. split; [exact D2|]. rewrite V3. apply total_step; [exact D1|exact V1|lia].
      * exact I.
      * destruct IH as (x & b & -> & N1). exists (c :: x), b. split; [reflexivity|]. intros [X|X]; [congruence|tauto].
      * exact IH.
Qed.
Lemma number_complete s d t : Forall digit s -> d = 125 \/ d = 44 -> forall num, -1 <= num <= 32768 -> number (s ++ d :: t) num = Good (total num s, d, t).
Proof.
  intros F D. induction F as [|c s C F IH]; intros num B; cbn [app]; rewrite number_step.
  - replace ((d =? 125) || (d =? 44)) with true; [reflexivity|]. symmetry. apply orb_true_iff. rewrite !Z.eqb_eq. exact D.
  - unfold digit in C. replace ((c =? 125) || (c =? 44)) with false by (symmetry; apply orb_false_iff; split; apply Z.eqb_neq; lia).
    replace (c =? 92) with false by (symmetry; apply Z.eqb_neq; lia). pose proof (step_range num c C B). rewrite IH by lia.
    rewrite total_step by assumption. reflexivity.
Qed.
Lemma total_first s : Forall digit s -> total (-1) s = match s with [] => -1 | _ => Z.min 32768 (value s) end.
Proof. intros F. unfold total. change (-1 =? -1) with true. destruct s; [reflexivity|]. f_equal. Qed.
(** The text of an interval behind its brace. *)
Definition inner (a : list Z) (b : option (list Z)) : list Z := match b with None => a ++ [125] | Some b => a ++ 44 :: b ++ [125] end.
Definition bounds (a : list Z) (b : option (list Z)) : nat * option nat :=
  (Z.to_nat (value a), match b with None => Some (Z.to_nat (value a)) | Some [] => None | Some b => Some (Z.to_nat (value b)) end).
Lemma interval_sound p :
  match interval p with
  | Good (lo, hi, t) => exists a b, quant_ok (QInterval a b) /\ p = inner a b ++ t /\ (lo, hi) = bounds a b
  | Bad => True
  | Beyond => outside (123 :: p)
  | Deep => False
  end.
Proof.
  unfold interval. pose proof (number_sound p (-1) ltac:(lia)) as H. destruct (number p (-1)) as [[[v d] t]| | |]; cbn [pbind]; try exact H; try exact I.
  2:{ destruct H as (x & b & -> & N). right; right; right; right. exists x. split; [|exact N]. exists [], b. cbn. rewrite <- app_assoc. reflexivity. }
  destruct H as (a & -> & D & N & V). destruct (Z.eqb_spec v (-2)) as [E|E]; [exact I|]. destruct V as [V|(F & _ & V)]; [congruence|].
  rewrite total_first in V by exact F. pose proof (value_nonneg a F) as VA.
  destruct ((v =? -1) && (d =? 125)) eqn:E1; [exact I|]. cbv zeta.
  assert (V0 : (if v =? -1 then 0 else v) = Z.min 32768 (value a)).
  { destruct a as [|c a]; subst v; [reflexivity|]. destruct (Z.eqb_spec (Z.min 32768 (value (c :: a))) (-1)); lia. }
  rewrite V0. destruct (Z.eqb_spec d 125) as [->|D2].
  - destruct (Z.ltb_spec 32767 (Z.min 32768 (value a))) as [L|L]; [exact I|]. exists a, None. split; [|split].
    + cbn. split; [split; [exact F|lia]|]. intros ->. subst v. discriminate.
    + cbn. rewrite <- app_assoc. reflexivity.
    + cbn. rewrite Z.min_r by lia. reflexivity.
  - destruct D as [D|D]; [congruence|]. subst d. pose proof (number_sound t (-1) ltac:(lia)) as H2.
    destruct (number t (-1)) as [[[v2 d] t2]| | |]; cbn [pbind]; try exact H2; try exact I.
    2:{ destruct H2 as (x & b & -> & N2). right; right; right; right. exists (a ++ 44 :: x). split.
        - exists [], b. cbn. rewrite <- !app_assoc. reflexivity.
        - intros I2. apply in_app_iff in I2. destruct I2 as [I2|[I2|I2]]; [tauto|discriminate|tauto]. }
    destruct H2 as (b & -> & D & N2 & W). destruct (Z.eqb_spec v2 (-2)) as [E3|E3]; [exact I|]. destruct W as [W|(G & _ & W)]; [congruence|].
    rewrite total_first in W by exact G. pose proof (value_nonneg b G) as VB. destruct (Z.eqb_spec d 44) as [E4|E4]; [exact I|]. destruct D as [->|D]; [|congruence].
    destruct (Z.eqb_spec v2 (-1)) as [E5|E5].
    + destruct b as [|c b]; [|lia]. destruct (Z.ltb_spec 32767 (Z.min 32768 (value a))) as [L|L]; [exact I|]. exists a, (Some []). split; [|split].
      * cbn. split; [split; [exact F|lia]|]. split; [split; [constructor|cbn; lia]|]. congruence.
      * cbn. rewrite <- app_assoc. reflexivity.
      * cbn. rewrite Z.min_r by lia. reflexivity.
    + assert (W2 : v2 = Z.min 32768 (value b)) by (destruct b; [congruence|exact W]).
      destruct (Z.ltb_spec v2 (Z.min 32768 (value a))) as [L|L]; [exact I|]. destruct (Z.ltb_spec 32767 v2) as [L2|L2]; [exact I|].
      exists a, (Some b). split; [|split].
      * cbn. split; [split; [exact F|lia]|]. split; [split; [exact G|lia]|]. intros _. lia.
      * cbn. rewrite <- app_assoc. cbn. rewrite <- app_assoc. reflexivity.
      * cbn. rewrite Z.min_r by lia. destruct b; [congruence|]. rewrite W2, Z.min_r by lia. reflexivity.
Qed.
Lemma interval_complete a b t : quant_ok (QInterval a b) -> interval (inner a b ++ t) = Good (bounds a b, t).
Proof.
  intros OK. unfold interval, inner, bounds. destruct b as [b|].
  - destruct OK as ([F LA] & [G LB] & C). rewrite <- app_assoc. cbn [app]. rewrite <- app_assoc. cbn [app].
    pose proof (value_nonneg a F) as VA. pose proof (value_nonneg b G) as VB.
    rewrite number_complete by (auto; lia). cbn [pbind]. rewrite total_first by exact F. change (44 =? 125) with false. rewrite andb_false_r. cbv zeta.
    assert (A0 : match a with [] => -1 | _ => Z.min 32768 (value a) end <> -2) by (destruct a; lia). apply Z.eqb_neq in A0. rewrite A0.
    replace (if match a with [] => -1 | _ => Z.min 32768 (value a) end =? -1 then 0 else match a with [] => -1 | _ => Z.min 32768 (value a) end) with (value a).
    2:{ destruct a as [|c a]; [reflexivity|]. destruct (Z.eqb_spec (Z.min 32768 (value (c :: a))) (-1)); lia. }
    rewrite number_complete by (auto; lia). cbn [pbind]. rewrite total_first by exact G. change (125 =? 44) with false.
    destruct b as [|c b].
    + change (-1 =? -2) with false. change (-1 =? -1) with true. cbn iota. replace (32767 <? value a) with false by (symmetry; apply Z.ltb_ge; lia). reflexivity.
    + specialize (C ltac:(discriminate)). rewrite Z.min_r by lia.
      replace (value (c :: b) =? -2) with false by (symmetry; apply Z.eqb_neq; lia). replace (value (c :: b) =? -1) with false by (symmetry; apply Z.eqb_neq; lia).
      replace (value (c :: b) <? value a) with false by (symmetry; apply Z.ltb_ge; lia). replace (32767 <? value (c :: b)) with false by (symmetry; apply Z.ltb_ge; lia).
      reflexivity.
  - destruct OK as ([F LA] & NE). rewrite <- app_assoc. cbn [app]. pose proof (value_nonneg a F) as VA.
    rewrite number_complete by (auto; lia). cbn [pbind]. rewrite total_first by exact F. destruct a as [|c a]; [congruence|]. rewrite Z.min_r by lia.
    replace (value (c :: a) =? -2) with false by (symmetry; apply Z.eqb_neq; lia). replace (value (c :: a) =? -1) with false by (symmetry; apply Z.eqb_neq; lia).
    cbn [andb]. cbv zeta. change (125 =? 125) with true. cbn iota. replace (32767 <? value (c :: a)) with false by (symmetry; apply Z.ltb_ge; lia). reflexivity.
Qed.
Definition repeats (p : list Z) : bool := begins 42 p || begins 43 p || begins 63 p || begins 123 p.
Lemma quant_interval a b t : quant_text (QInterval a b) ++ t = 123 :: inner a b ++ t.
Proof. destruct b as [b|]; cbn [quant_text inner]; lits; cbn [app]; rewrite <- ?app_assoc; reflexivity. Qed.
Lemma repeated_interval r a b : repeated r (QInterval a b) = Rep r (fst (bounds a b)) (snd (bounds a b)).
Proof. destruct b as [[|c b]|]; reflexivity. Qed.
Lemma quants_sound n : forall r p,
  match quants n r p with
  | Good (r', rest) => exists q, Forall quant_ok q /\ p = flat_map quant_text q ++ rest /\ r' = fold_left repeated q r /\ repeats rest = false
  | Bad => True
  | Beyond => outside p
  | Deep => (n <= length p)%nat
  end.
Proof.
  induction n as [|n IH]; intros r p; cbn [quants]; [lia|]. destruct p as [|c t].
  { exists []. repeat split; constructor. }
  assert (GO : forall q t', quant_ok q -> c :: t = quant_text q ++ t' -> (length t' <= length t)%nat ->
    match quants n (repeated r q) t' with
    | Good (r', rest) => exists q, Forall quant_ok q /\ c :: t = flat_map quant_text q ++ rest /\ r' = fold_left repeated q r /\ repeats rest = false
    | Bad => True | Beyond => outside (c :: t) | Deep => (S n <= length (c :: t))%nat end).
  { intros q t' OK E L. specialize (IH (repeated r q) t'). destruct (quants n (repeated r q) t') as [[r' rest]| | |].
    - destruct IH as (qs & F & -> & -> & R). exists (q :: qs). split; [constructor; assumption|]. split; [|auto]. cbn [flat_map]. rewrite <- app_assoc. exact E.
    - exact I.
    - rewrite E. apply outside_app, IH.
    - cbn [length]. lia. }
  destruct (Z.eqb_spec c 42) as [->|N1]; [apply (GO QStar t I eq_refl); lia|].
  destruct (Z.eqb_spec c 43) as [->|N2]; [apply (GO QPlus t I eq_refl); lia|].
  destruct (Z.eqb_spec c 63) as [->|N3]; [apply (GO QOpt t I eq_refl); lia|].
  destruct (Z.eqb_spec c 123) as [->|N4].
  - pose proof (interval_sound t) as H. destruct (interval t) as [[[lo hi] t']| | |]; cbn [pbind]; try exact H; [|contradiction].
    destruct H as (a & b & OK & -> & E). rewrite <- (quant_interval a b t') in *.
    specialize (GO (QInterval a b) t' OK eq_refl). rewrite repeated_interval, <- E in GO. apply GO. rewrite app_length. lia.
  - exists []. split; [constructor|]. split; [reflexivity|]. split; [reflexivity|]. unfold repeats. cbn [begins].
    apply Z.eqb_neq in N1, N2, N3, N4. rewrite N1, N2, N3, N4. reflexivity.
Qed.
Lemma quants_complete q : forall n r rest, Forall quant_ok q -> repeats rest = false -> (length q < n)%nat ->
  quants n r (flat_map quant_text q ++ rest) = Good (fold_left repeated q r, rest).
Proof.
  induction q as [|q qs IH]; intros n r rest F R N; (destruct n as [|n]; [lia|]).
  - cbn [flat_map app quants fold_left]. destruct rest as [|c t]; [reflexivity|]. unfold repeats in R. cbn [begins] in R.
    apply orb_false_iff in R. destruct R as [R R4]. apply orb_false_iff in R. destruct R as [R R3]. apply orb_false_iff in R. destruct R as [R1 R2].
    rewrite R1, R2, R3, R4. reflexivity.
  - inversion F as [|? ? OK F2]; subst. cbn [length] in N. cbn [flat_map fold_left]. rewrite <- app_assoc.
    assert (IHq := fun r => IH n r rest F2 R ltac:(lia)). clear IH.
    destruct q as [| | |a b]; [| | |rewrite quant_interval]; cbn [quant_text quants]; lits; cbn [app].
    + change (42 =? 42) with true. apply IHq.
    + change (43 =? 42) with false. change (43 =? 43) with true. apply IHq.
    + change (63 =? 42) with false. change (63 =? 43) with false. change (63 =? 63) with true. apply IHq.
    + change (123 =? 42) with false. change (123 =? 43) with false. change (123 =? 63) with false. change (123 =? 123) with true. cbn iota.
      rewrite interval_complete by exact OK. rewrite repeated_interval. destruct (bounds a b) as [lo hi]. cbn [pbind fst snd]. apply IHq.
Qed.
Lemma quant_text_length q : (1 <= length (quant_text q))%nat.
Proof. destruct q as [| | |a [b|]]; cbn [quant_text]; lits; cbn [length app]; lia. Qed.
Lemma quants_text_length q : (length q <= length (flat_map quant_text q))%nat.
Proof. induction q as [|q qs IH]; [cbn; lia|]. cbn [flat_map length]. rewrite app_length. pose proof (quant_text_length q). lia. Qed.
