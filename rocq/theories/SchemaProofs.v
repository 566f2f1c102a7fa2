(** Facts about the text functions of the configuration schema. *)
From Verif Require Import Base BaseFacts UtilsModel UtilsSpec UtilsProofs SqlModel SqlProofs ConfigModel ValidModel ValidSpec ValidProofs SchemaModel SchemaSpec.
From Coq Require Import Permutation Sorted.
Local Open Scope Z_scope.

(** ** Maps *)
Lemma str_lt_trans a : forall b c, str_lt a b = true -> str_lt b c = true -> str_lt a c = true.
Proof.
  induction a as [|x a IH]; intros [|y b] [|z c] H K; try discriminate; [reflexivity|].
  cbn [str_lt] in *. apply orb_true_iff in H, K. apply orb_true_iff. rewrite !andb_true_iff in *.
  destruct H as [H|[H1 H2]], K as [K|[K1 K2]]; [left; lia..|]. right. split; [lia|]. eapply IH; eassumption.
Qed.
Lemma str_lt_irrefl a : str_lt a a = false.
Proof. induction a as [|x a IH]; [reflexivity|]. cbn [str_lt]. rewrite IH, andb_false_r, orb_false_r. lia. Qed.
Lemma str_lt_total a : forall b, a = b \/ str_lt a b = true \/ str_lt b a = true.
Proof.
  induction a as [|x a IH]; intros [|y b]; [left; reflexivity|right; left; reflexivity|right; right; reflexivity|].
  cbn [str_lt]. destruct (Z.lt_trichotomy x y) as [L|[->|L]].
  - right; left. apply orb_true_iff. left. lia.
  - destruct (IH b) as [->|[H|H]]; [left; reflexivity| |]; rewrite H, Z.eqb_refl, andb_true_r, orb_true_r; tauto.
  - right; right. apply orb_true_iff. left. lia.
Qed.
Lemma mfind_put m k v j : mfind (mput m k v) j = if weqb k j then Some v else mfind m j.
Proof.
  induction m as [|[x w] t IH]; [reflexivity|]. cbn [mput]. destruct (weqb x k) eqn:E; [apply weqb_iff in E; subst x; cbn [mfind]; destruct (weqb k j); reflexivity|].
  destruct (str_lt k x) eqn:L; [reflexivity|]. cbn [mfind]. rewrite IH. destruct (weqb x j) eqn:F; [|reflexivity].
  apply weqb_iff in F. subst x. destruct (weqb k j) eqn:G; [|reflexivity]. apply weqb_iff in G. subst. rewrite weqb_refl in E. discriminate.
Qed.
Lemma mput_bound m k v a : str_lt a k = true -> Forall (fun b => str_lt a (fst b) = true) m -> Forall (fun b => str_lt a (fst b) = true) (mput m k v).
Proof.
  intros A H. induction H as [|[x w] t Hx H IH]; [constructor; [exact A|constructor]|]. cbn [mput]. cbn [fst] in Hx.
  destruct (weqb x k); [constructor; assumption|]. destruct (str_lt k x); [constructor; [exact A|constructor; assumption]|constructor; assumption].
Qed.
Lemma mput_ascending m k v : ascending m -> ascending (mput m k v).
Proof.
  unfold ascending. intros H. induction H as [|[x w] t H IH Hx]; [constructor; constructor|]. cbn [mput].
  destruct (weqb x k) eqn:E; [apply weqb_iff in E; subst x; constructor; assumption|].
  destruct (str_lt k x) eqn:L.
  - constructor; [constructor; assumption|]. constructor; [exact L|]. eapply Forall_impl; [|exact Hx]. intros b Hb. cbn [fst] in *. eapply str_lt_trans; eassumption.
  - constructor; [exact IH|]. apply mput_bound; [|exact Hx]. cbn [fst]. destruct (str_lt_total x k) as [->|[G|G]]; [rewrite weqb_refl in E; discriminate|exact G|congruence].
Qed.
Lemma madd_ascending m e : ascending m -> ascending (madd m e).
Proof. intros H. unfold madd. destruct (mfind m (fst e)); [exact H|apply mput_ascending, H]. Qed.
Lemma minsert_ascending l : forall m, ascending m -> ascending (minsert m l).
Proof. unfold minsert. induction l as [|e l IH]; intros m H; [exact H|]. cbn [fold_left]. apply IH, madd_ascending, H. Qed.
Lemma mfind_insert l : forall m j, mfind (minsert m l) j = match mfind m j with Some v => Some v | None => mfind l j end.
Proof.
  unfold minsert. induction l as [|[k v] l IH]; intros m j; [cbn [fold_left mfind]; destruct (mfind m j); reflexivity|]. cbn [fold_left]. rewrite IH. unfold madd. cbn [fst snd].
  destruct (mfind m k) as [w|] eqn:E.
  - cbn [mfind]. destruct (mfind m j) eqn:F; [reflexivity|]. destruct (weqb k j) eqn:G; [apply weqb_iff in G; subst; congruence|reflexivity].
  - rewrite mfind_put. cbn [mfind]. destruct (weqb k j) eqn:G; [apply weqb_iff in G; subst; rewrite E; reflexivity|]. destruct (mfind m j); reflexivity.
Qed.
Lemma ascending_nodup m : ascending m -> NoDup (map fst m).
Proof.
  intros H. induction H as [|e t H IH F]; [constructor|]. cbn [map]. constructor; [|exact IH]. intros K. apply in_map_iff in K. destruct K as (e' & E & K).
  rewrite Forall_forall in F. specialize (F e' K). rewrite E, str_lt_irrefl in F. discriminate.
Qed.
Lemma mfind_iff m k v : ascending m -> mfind m k = Some v <-> In (k, v) m.
Proof.
  intros H. induction H as [|[x w] t H IH F]; [split; [discriminate|intros []]|]. cbn [mfind In]. destruct (weqb x k) eqn:E.
  - apply weqb_iff in E. subst x. split; [intros K; injection K as ->; left; reflexivity|]. intros [K|K]; [congruence|].
    rewrite Forall_forall in F. specialize (F _ K). cbn [fst] in F. rewrite str_lt_irrefl in F. discriminate.
  - rewrite IH. split; [right; assumption|]. intros [K|K]; [|exact K]. injection K as -> ->. rewrite weqb_refl in E. discriminate.
Qed.
Lemma builtin_ascending : ascending builtin.
Proof. unfold builtin. do 4 apply mput_ascending. constructor. Qed.
(** Putting keys in ascending order appends. *)
Lemma mput_last m k v : Forall (fun b => str_lt (fst b) k = true) m -> mput m k v = m ++ [(k, v)].
Proof.
  intros H. induction H as [|[x w] t Hx H IH]; [reflexivity|]. cbn [mput app fst] in *. destruct (weqb x k) eqn:E; [apply weqb_iff in E; subst; rewrite str_lt_irrefl in Hx; discriminate|].
  destruct (str_lt k x) eqn:L; [pose proof (str_lt_trans x k x Hx L) as K; rewrite str_lt_irrefl in K; discriminate|]. rewrite IH. reflexivity.
Qed.
Definition similar (s : list Z) (e : list Z * ckey) : bool := match UtilsModel.find_ (fst e) s with Some _ => true | None => false end.
Lemma similar_loop s m : ascending m -> forall acc, (forall a b, In a acc -> In b m -> str_lt (fst a) (fst b) = true) ->
  fold_left (fun tmp e => match UtilsModel.find_ (fst e) s with Some _ => mput tmp (fst e) (snd e) | None => tmp end) m acc = acc ++ filter (similar s) m.
Proof.
  intros H. induction H as [|e t H IH F]; intros acc Ha; [rewrite app_nil_r; reflexivity|]. cbn [fold_left filter]. unfold similar at 1. destruct (UtilsModel.find_ (fst e) s).
  - rewrite IH.
    + rewrite mput_last by (apply Forall_forall; intros b Hb; apply Ha; [exact Hb|left; reflexivity]). destruct e. cbn [fst snd]. rewrite <- app_assoc. reflexivity.
    + intros a b A B. rewrite mput_last in A by (apply Forall_forall; intros c Hc; apply Ha; [exact Hc|left; reflexivity]). apply in_app_iff in A. destruct A as [A|[<-|[]]].
      * apply Ha; [exact A|right; exact B].
      * rewrite Forall_forall in F. apply F, B.
  - apply IH. intros a b A B. apply Ha; [exact A|right; exact B].
Qed.
Lemma similar_iff s e : similar s e = true <-> occurs s (fst e).
Proof.
  unfold similar. destruct (UtilsModel.find_ (fst e) s) as [i|] eqn:F.
  - apply find_some in F. destruct F as (a & b & E & _). split; [intros _; exists a, b; exact E|reflexivity].
  - apply UtilsProofs.find_none in F. split; [discriminate|contradiction].
Qed.

(** ** Reading a script *)
Fixpoint srun (st : sstate) (s : list Z) : option (list tok * sstate) :=
  match s with
  | [] => Some ([], st)
  | c :: t =>
      match script_step st c with
      | Some (l, st') => match srun st' t with Some (r, st'') => Some (l ++ r, st'') | None => None end
      | None => None
      end
  end.
Lemma srun_app a b l1 s1 l2 s2 : forall s0, srun s0 a = Some (l1, s1) -> srun s1 b = Some (l2, s2) -> srun s0 (a ++ b) = Some (l1 ++ l2, s2).
Proof.
  revert l1. induction a as [|c a IH]; intros l1 s0 H K; cbn [srun app] in *.
  - injection H as <- <-. exact K.
  - destruct (script_step s0 c) as [[l st]|]; [|discriminate]. destruct (srun st a) as [[r st']|] eqn:E; [|discriminate]. injection H as <- <-.
    rewrite (IH r st E K), app_assoc. reflexivity.
Qed.
Lemma script_run a b l st : forall s0, srun s0 a = Some (l, st) -> script_lex s0 (a ++ b) = match script_lex st b with Some r => Some (l ++ r) | None => None end.
Proof.
  revert l. induction a as [|c a IH]; intros l s0 H; cbn [srun app script_lex] in *.
  - injection H as <- <-. destruct (script_lex _ b); reflexivity.
  - destruct (script_step s0 c) as [[k s1]|]; [|discriminate]. destruct (srun s1 a) as [[r st']|] eqn:E; [|discriminate]. injection H as <- <-.
    rewrite (IH r s1 E). destruct (script_lex st' b); [rewrite app_assoc; reflexivity|reflexivity].
Qed.
Lemma srun_sq k : ~ In 39 k -> forall a, srun (SNorm (LSq a)) k = Some ([], SNorm (LSq (rev k ++ a))).
Proof.
  induction k as [|c k IH]; intros H a; [reflexivity|]. cbn [srun script_step quoted negb]. rewrite andb_false_r. cbn [lex_step].
  replace (c =? 39) with false by (destruct (c =? 39) eqn:E; [exfalso; apply H; left; lia|reflexivity]). rewrite IH by (intros K; apply H; right; exact K). cbn [app rev]. rewrite <- app_assoc. reflexivity.
Qed.
Lemma srun_dq k : ~ In 34 k -> forall a, srun (SNorm (LDq a)) k = Some ([], SNorm (LDq (rev k ++ a))).
Proof.
  induction k as [|c k IH]; intros H a; [reflexivity|]. cbn [srun script_step quoted negb]. rewrite andb_false_r. cbn [lex_step].
  replace (c =? 34) with false by (destruct (c =? 34) eqn:E; [exfalso; apply H; left; lia|reflexivity]). rewrite IH by (intros K; apply H; right; exact K). cbn [app rev]. rewrite <- app_assoc. reflexivity.
Qed.
Lemma srun_comment k : ~ In 10 k -> srun SComment k = Some ([], SComment).
Proof.
  induction k as [|c k IH]; intros H; [reflexivity|]. cbn [srun script_step].
  replace (c =? 10) with false by (destruct (c =? 10) eqn:E; [exfalso; apply H; left; lia|reflexivity]). rewrite IH by (intros K; apply H; right; exact K). reflexivity.
Qed.
(** Text in quotes followed by a comma or a parenthesis. *)
Lemma srun_sq_close k c : c = 44 \/ c = 41 -> ~ In 39 k -> srun (SNorm (LSq [])) (k ++ [39; c]) = Some ([Sq k; Punct c], SNorm LStart).
Proof.
  intros C H. eapply (srun_app k [39; c] []); [apply srun_sq, H|]. rewrite app_nil_r. destruct C as [-> | ->]; cbn -[rev]; rewrite rev_involutive; reflexivity.
Qed.
Lemma srun_dq_close k c : c = 44 \/ c = 41 -> ~ In 34 k -> srun (SNorm (LDq [])) (k ++ [34; c]) = Some ([Dq k; Punct c], SNorm LStart).
Proof.
  intros C H. eapply (srun_app k [34; c] []); [apply srun_dq, H|]. rewrite app_nil_r. destruct C as [-> | ->]; cbn -[rev]; rewrite rev_involutive; reflexivity.
Qed.

Lemma has_in c s : has c s = true <-> In c s.
Proof. unfold has. rewrite existsb_exists. split; [intros (x & H & E); apply Z.eqb_eq in E; subst; exact H|intros H; exists c; split; [exact H|apply Z.eqb_refl]]. Qed.
Lemma in_lit_false c s : has c s = false -> ~ In c s.
Proof. intros H K. apply has_in in K. congruence. Qed.

Definition insert_tokens : list tok := [Word (lit "INSERT"); Word (lit "OR"); Word (lit "IGNORE"); Word (lit "INTO"); Dq (lit "CONFIG"); Word (lit "VALUES"); Punct 40].
Definition comment_tok (e : list Z * ckey) : tok := if has 39 (kdesc (snd e)) then Dq (rcomments (row_for e)) else Sq (rcomments (row_for e)).
Definition entry_toks (e : list Z * ckey) : list tok :=
  insert_tokens ++ [Sq (fst e); Punct 44; Sq (kdefault (snd e)); Punct 44; Word (rstatic (row_for e)); Punct 44; Word (lit "0"); Punct 44; comment_tok e; Punct 41].
Lemma comment_free c e : ~ In c (kdesc (snd e)) -> has c (lit "1=enabled, 0=disabled - ") = false -> has c (lit "  Static.") = false -> ~ In c (rcomments (row_for e)).
Proof.
  intros H A B K. unfold row_for in K. cbn [rcomments] in K. apply in_lit_false in A, B. apply in_app_iff in K. destruct K as [K|K].
  - destruct (ktyp (snd e)); try exact K; exact (A K).
  - apply in_app_iff in K. destruct K as [K|K]; [exact (H K)|]. destruct (kstatic (snd e)); [exact (B K)|exact K].
Qed.
Lemma entry_run e : quotable e -> srun (SNorm LStart) (sql_entry e) = Some (entry_toks e ++ [Punct 59], SNorm LStart).
Proof.
  intros (N & D & C).
  assert (E : sql_entry e = lit "INSERT OR IGNORE INTO ""CONFIG"" VALUES('" ++ (fst e ++ [39; 44]) ++ [39] ++ (kdefault (snd e) ++ [39; 44])
     ++ (rstatic (row_for e) ++ lit ",0,") ++ (if has 39 (kdesc (snd e)) then [34] else [39]) ++ (rcomments (row_for e) ++ [if has 39 (kdesc (snd e)) then 34 else 39; 41]) ++ [59; 10]).
  { unfold sql_entry, row_for, is_boolean. cbn [rstatic rcomments]. rewrite <- !app_assoc. destruct (kstatic (snd e)), (has 39 (kdesc (snd e))), (ktyp (snd e)); reflexivity. }
  rewrite E. unfold entry_toks. clear E.
  eapply (srun_app (lit "INSERT OR IGNORE INTO ""CONFIG"" VALUES('") _ insert_tokens (SNorm (LSq []))); [vm_compute; reflexivity|].
  eapply (srun_app _ _ [Sq (fst e); Punct 44]); [apply srun_sq_close; [left; reflexivity|exact N]|].
  eapply (srun_app [39] _ [] (SNorm (LSq []))); [reflexivity|].
  eapply (srun_app _ _ [Sq (kdefault (snd e)); Punct 44]); [apply srun_sq_close; [left; reflexivity|exact D]|].
  eapply (srun_app _ _ [Word (rstatic (row_for e)); Punct 44; Word (lit "0"); Punct 44] (SNorm LStart)).
  { unfold row_for. cbn [rstatic]. destruct (kstatic (snd e)); reflexivity. }
  unfold comment_tok. destruct (has 39 (kdesc (snd e))) eqn:Q.
  - apply has_in in Q. destruct C as [C|C]; [contradiction|]. eapply (srun_app [34] _ [] (SNorm (LDq []))); [reflexivity|].
    eapply (srun_app _ _ [Dq (rcomments (row_for e)); Punct 41]); [apply srun_dq_close; [right; reflexivity|]|reflexivity]. apply comment_free; [exact C|reflexivity|reflexivity].
  - apply in_lit_false in Q. eapply (srun_app [39] _ [] (SNorm (LSq []))); [reflexivity|].
    eapply (srun_app _ _ [Sq (rcomments (row_for e)); Punct 41]); [apply srun_sq_close; [right; reflexivity|]|reflexivity]. apply comment_free; [exact Q|reflexivity|reflexivity].
Qed.
Lemma entries_run m : Forall quotable m -> srun (SNorm LStart) (concat (map sql_entry m)) = Some (concat (map (fun e => entry_toks e ++ [Punct 59]) m), SNorm LStart).
Proof. intros H. induction H as [|e m He H IH]; [reflexivity|]. cbn [map concat]. eapply srun_app; [apply entry_run, He|exact IH]. Qed.
Definition head_toks : list tok :=
  ctokens (lit "PRAGMA foreign_keys=OFF;") ++ ctokens (lit "BEGIN TRANSACTION;") ++ create_tokens ++ [Punct 59].
Lemma head_run program version : ~ In 10 program -> ~ In 10 version -> srun (SNorm LStart) (sql_head program version) = Some (head_toks, SNorm LStart).
Proof.
  intros P V. unfold sql_head.
  assert (A : srun (SNorm LStart) (lit "--" ++ nl ++ lit "-- This file was generated using: ") = Some ([], SComment)) by (vm_compute; reflexivity).
  replace (lit "--" ++ nl ++ lit "-- This file was generated using: " ++ program ++ lit " --gensql" ++ nl ++ lit "-- binary version: " ++ version ++
    nl ++ lit "--" ++ nl ++ lit "-- Future changes should not be put in this file directly but" ++ nl
  ++ lit "-- rather in the program's ConfigurationKey schema." ++ nl ++ lit "--" ++ nl
  ++ lit "PRAGMA foreign_keys=OFF;" ++ nl ++ lit "BEGIN TRANSACTION;" ++ nl
  ++ lit "CREATE TABLE IF NOT EXISTS CONFIG ( KEYSTRING TEXT UNIQUE NOT NULL, VALUESTRING TEXT, STATIC INTEGER DEFAULT 0, OPTIONAL INTEGER DEFAULT 0, COMMENTS TEXT DEFAULT '');" ++ nl)
  with ((lit "--" ++ nl ++ lit "-- This file was generated using: ") ++ program ++ (lit " --gensql" ++ nl ++ lit "-- binary version: ") ++ version ++
    (nl ++ lit "--" ++ nl ++ lit "-- Future changes should not be put in this file directly but" ++ nl
  ++ lit "-- rather in the program's ConfigurationKey schema." ++ nl ++ lit "--" ++ nl
  ++ lit "PRAGMA foreign_keys=OFF;" ++ nl ++ lit "BEGIN TRANSACTION;" ++ nl
  ++ lit "CREATE TABLE IF NOT EXISTS CONFIG ( KEYSTRING TEXT UNIQUE NOT NULL, VALUESTRING TEXT, STATIC INTEGER DEFAULT 0, OPTIONAL INTEGER DEFAULT 0, COMMENTS TEXT DEFAULT '');" ++ nl))
  by (rewrite <- !app_assoc; reflexivity).
  eapply (srun_app _ _ [] SComment head_toks); [exact A|].
  eapply (srun_app _ _ [] SComment head_toks); [apply srun_comment, P|].
  eapply (srun_app _ _ [] SComment head_toks); [vm_compute; reflexivity|].
  eapply (srun_app _ _ [] SComment head_toks); [apply srun_comment, V|].
  vm_compute. reflexivity.
Qed.
Definition no_semi (l : list tok) : Prop := ~ In (Punct 59) l.
Lemma statements_one a rest : no_semi a -> forall cur, statements cur (a ++ Punct 59 :: rest) = match statements [] rest with Some r => Some ((rev cur ++ a) :: r) | None => None end.
Proof.
  induction a as [|k a IH]; intros H cur; cbn [app statements].
  - rewrite app_nil_r. reflexivity.
  - assert (H' : no_semi a) by (intros K; apply H; right; exact K).
    assert (E : statements (k :: cur) (a ++ Punct 59 :: rest) = match statements [] rest with Some r => Some ((rev cur ++ k :: a) :: r) | None => None end).
    { rewrite (IH H'). cbn [rev]. rewrite <- app_assoc. reflexivity. }
    destruct k; try exact E. destruct (c =? 59) eqn:Q; [apply Z.eqb_eq in Q; subst; exfalso; apply H; left; reflexivity|exact E].
Qed.
Lemma entry_no_semi e : no_semi (entry_toks e).
Proof. intros K. unfold entry_toks, insert_tokens, comment_tok in K. cbn [app In] in K. destruct (has 39 (kdesc (snd e))); repeat (destruct K as [K|K]; [discriminate|]); exact K. Qed.
Lemma entry_statement e r : run_statement (entry_toks e) r = Some (if missing r e then r ++ [row_for e] else r).
Proof.
  unfold run_statement, entry_toks, insert_tokens. cbn [app words]. rewrite !weqb_refl. cbn [andb]. rewrite Z.eqb_refl. cbn [p_vals val_of].
  assert (C : exists v, val_of (comment_tok e) = Some v /\ literal v = Some (rcomments (row_for e))).
  { unfold comment_tok. destruct (has 39 (kdesc (snd e))); eexists; split; reflexivity. }
  destruct C as (v & C1 & C2). rewrite C1. change (44 =? 41) with false. change (44 =? 44) with true. change (41 =? 41) with true. cbv iota. cbn [literals literal].
  rewrite C2. replace (forallb (fun c => (48 <=? c) && (c <=? 57)) (rstatic (row_for e))) with true by (unfold row_for; cbn [rstatic]; destruct (kstatic (snd e)); reflexivity).
  change (forallb (fun c => (48 <=? c) && (c <=? 57)) (lit "0")) with true. cbv iota. unfold missing. f_equal. destruct (existsb (fun x => weqb (rkey x) (fst e)) r); reflexivity.
Qed.
Lemma missing_app r e k : fst e <> fst k -> missing (r ++ [row_for e]) k = missing r k.
Proof. intros H. unfold missing. rewrite existsb_app. cbn [existsb]. change (rkey (row_for e)) with (fst e). rewrite weqb_neq by exact H. rewrite !orb_false_r. reflexivity. Qed.
Lemma filter_same {A} (p q : A -> bool) l : (forall x, In x l -> p x = q x) -> filter p l = filter q l.
Proof. induction l as [|x l IH]; intros H; [reflexivity|]. cbn [filter]. rewrite (H x) by (left; reflexivity). rewrite IH by (intros y Hy; apply H; right; exact Hy). reflexivity. Qed.
Lemma entries_statements m : forall r rest ss, NoDup (map fst m) -> statements [] rest = Some ss ->
  exists ss', statements [] (concat (map (fun e => entry_toks e ++ [Punct 59]) m) ++ rest) = Some ss' /\
    run_statements ss' r = run_statements ss (r ++ map row_for (filter (missing r) m)).
Proof.
  induction m as [|e m IH]; intros r rest ss D S0; [exists ss; split; [exact S0|cbn [filter map]; rewrite app_nil_r; reflexivity]|].
  cbn [map] in D. inversion D as [|? ? N D']; subst. cbn [map concat]. rewrite <- !app_assoc. cbn [app]. rewrite statements_one by apply entry_no_semi.
  set (r1 := if missing r e then r ++ [row_for e] else r).
  destruct (IH r1 rest ss D' S0) as (ss' & E & R). rewrite E. eexists. split; [reflexivity|]. cbn [rev app run_statements]. rewrite entry_statement. fold r1. rewrite R. f_equal.
  assert (F : filter (missing r1) m = filter (missing r) m).
  { apply filter_same. intros k Hk. unfold r1. destruct (missing r e); [|reflexivity]. apply missing_app. intros Q. apply N. rewrite Q. apply in_map, Hk. }
  rewrite F. cbn [filter]. unfold r1. destruct (missing r e); [cbn [map]; rewrite <- app_assoc; reflexivity|reflexivity].
Qed.
Lemma script_spec m program version r : ~ In 10 program -> ~ In 10 version -> Forall quotable m -> NoDup (map fst m) ->
  run_script (getDefaultSQL m program version) r = Some (r ++ map row_for (filter (missing r) m)).
Proof.
  intros P V Q D. unfold run_script, getDefaultSQL. rewrite (script_run _ _ _ _ _ (head_run program version P V)). rewrite (script_run _ _ _ _ _ (entries_run m Q)).
  change (script_lex (SNorm LStart) (lit "COMMIT;" ++ nl ++ nl)) with (Some [Word (lit "COMMIT"); Punct 59]). cbv iota beta.
  set (rest := concat _ ++ _). assert (H : exists ss, statements [] rest = Some ss /\ run_statements ss r = Some (r ++ map row_for (filter (missing r) m))).
  { destruct (entries_statements m r [Word (lit "COMMIT"); Punct 59] [[Word (lit "COMMIT")]] D eq_refl) as (ss & A & B). exists ss. split; [exact A|]. rewrite B. reflexivity. }
  destruct H as (ss & A & B).
  assert (HT : exists a b c, head_toks = a ++ Punct 59 :: b ++ Punct 59 :: c ++ [Punct 59] /\ no_semi a /\ no_semi b /\ no_semi c /\ forall q, run_statement a q = Some q /\ run_statement b q = Some q /\ run_statement c q = Some q).
  { exists (ctokens (lit "PRAGMA foreign_keys=OFF")), (ctokens (lit "BEGIN TRANSACTION")), create_tokens.
    split; [vm_compute; reflexivity|]. assert (X : forall l, existsb (fun t => if tok_eq_dec (Punct 59) t then true else false) l = false -> no_semi l).
    { intros l E K. assert (existsb (fun t => if tok_eq_dec (Punct 59) t then true else false) l = true) by (apply existsb_exists; exists (Punct 59); split; [exact K|destruct (tok_eq_dec (Punct 59) (Punct 59)); congruence]). congruence. }
    split; [apply X; vm_compute; reflexivity|]. split; [apply X; vm_compute; reflexivity|]. split; [apply X; vm_compute; reflexivity|]. intros q. repeat split; vm_compute; reflexivity. }
  destruct HT as (a & b & c & -> & Na & Nb & Nc & Z0). rewrite <- app_assoc. cbn [app]. rewrite <- app_assoc. cbn [app]. rewrite <- app_assoc. cbn [app].
  rewrite statements_one by exact Na. rewrite statements_one by exact Nb. rewrite statements_one by exact Nc. rewrite A. cbn [rev app run_statements]. destruct (Z0 r) as (R1 & R2 & R3). rewrite R1. rewrite R2, R3. exact B.
Qed.

(** ** TeX *)
Definition escape1 (x : Z) (s : list Z) : list Z := flat_map (fun c => if c =? x then [92; c] else [c]) s.
Lemma escape1_replaced x s : replaced [x] [92; x] s (escape1 x s).
Proof.
  remember (length s) as n eqn:L. assert (H : (length s <= n)%nat) by lia. clear L. revert s H. induction n as [|n IH]; intros s H.
  - destruct s; [|cbn [length] in H; lia]. apply rep_none. intros (a & b & E). destruct a; discriminate.
  - destruct (in_dec Z.eq_dec x s) as [I|I].
    + destruct (in_split_first x s I) as (a & b & -> & N). assert (E : escape1 x (a ++ x :: b) = a ++ [92; x] ++ escape1 x b).
      { unfold escape1. rewrite flat_map_app. cbn [flat_map]. rewrite Z.eqb_refl. f_equal. clear -N. induction a as [|c a IHa]; [reflexivity|]. cbn [flat_map]. replace (c =? x) with false by (destruct (c =? x) eqn:Q; [exfalso; apply N; left; lia|reflexivity]). cbn [app]. f_equal. apply IHa. intros K. apply N. right. exact K. }
      rewrite E. change (x :: b) with ([x] ++ b). apply rep_some.
      * intros a' c E'. destruct (Nat.le_gt_cases (length a) (length a')) as [G|G]; [exact G|exfalso]. apply N.
        assert (Q : nth_error (a ++ [x] ++ b) (length a') = Some x) by (rewrite E', nth_error_app2, Nat.sub_diag by lia; reflexivity).
        rewrite nth_error_app1 in Q by exact G. eapply nth_error_In, Q.
      * apply IH. rewrite app_length in H. cbn [length] in H. lia.
    + replace (escape1 x s) with s.
      * apply rep_none. intros (a & b & ->). apply I. apply in_app_iff. right. left. reflexivity.
      * unfold escape1. clear -I. induction s as [|c s IHs]; [reflexivity|]. cbn [flat_map]. replace (c =? x) with false by (destruct (c =? x) eqn:Q; [exfalso; apply I; left; lia|reflexivity]). cbn [app]. f_equal. apply IHs. intros K. apply I. right. exact K.
Qed.
Lemma replace_escape x s : replaceAll (S (length s)) s [x] [92; x] = Ok (escape1 x s).
Proof.
  destruct (replace_spec [x] [92; x] ltac:(discriminate) (S (length s)) s [] ltac:(lia)) as (s' & E & R). cbn [app length] in E. unfold replaceAll.
  rewrite E. f_equal. eapply (replaced_det [x] [92; x]); [discriminate|exact R|apply escape1_replaced].
Qed.
Lemma escape_both s : escape1 95 (escape1 94 s) = tex_escaped s.
Proof.
  unfold escape1, tex_escaped. induction s as [|c s IH]; [reflexivity|]. cbn [flat_map]. rewrite flat_map_app, IH. f_equal.
  destruct (c =? 94) eqn:E; cbn [orb flat_map app].
  - apply Z.eqb_eq in E. subst. reflexivity.
  - destruct (c =? 95); reflexivity.
Qed.
Lemma getTeX_escaped m program version : getTeX m program version = Ok (tex_escaped (tex_text m program version)).
Proof. unfold getTeX. change (lit "^") with [94]. change (lit "\^") with [92; 94]. change (lit "_") with [95]. change (lit "\_") with [92; 95]. rewrite replace_escape. cbn [bind]. rewrite replace_escape, escape_both. reflexivity. Qed.
Lemma split_three {A} (p q r : A -> bool) l : (forall x, In x l -> match p x, q x, r x with true, false, false | false, true, false | false, false, true => True | _, _, _ => False end) ->
  Permutation (filter p l ++ filter q l ++ filter r l) l.
Proof.
  induction l as [|x l IH]; intros H; [constructor|]. pose proof (H x (or_introl eq_refl)) as Hx. revert Hx. specialize (IH (fun y Hy => H y (or_intror Hy))). cbn [filter].
  destruct (p x), (q x), (r x); intros Hx; try (exfalso; exact Hx).
  - cbn [app]. constructor. exact IH.
  - cbn [app]. rewrite <- Permutation_middle. constructor. exact IH.
  - rewrite app_assoc, <- Permutation_middle, <- app_assoc. constructor. exact IH.
Qed.

(** ** LIKE *)
Lemma upc_same x y : upc x = upc y <-> same_letter x y.
Proof. unfold upc, same_letter. destruct (Z.leb_spec 97 x), (Z.leb_spec x 122), (Z.leb_spec 97 y), (Z.leb_spec y 122); cbn [andb]; lia. Qed.
Lemma like_any p s : like (37 :: p) s = true <-> exists a b, s = a ++ b /\ like p b = true.
Proof.
  cbn [like]. change (37 =? 37) with true. cbv iota. induction s as [|x s IH].
  - rewrite orb_false_r. split; [intros H; exists [], []; split; [reflexivity|exact H]|]. intros (a & b & E & H). destruct a; [|discriminate]. cbn [app] in E. subst. exact H.
  - rewrite orb_true_iff, IH. split.
    + intros [H|(a & b & -> & H)]; [exists [], (x :: s); split; [reflexivity|exact H]|exists (x :: a), b; split; [reflexivity|exact H]].
    + intros ([|y a] & b & E & H); cbn [app] in E; [left; subst; exact H|]. injection E as -> ->. right. exists a, b. split; [reflexivity|exact H].
Qed.
Lemma like_text p : ~ In 37 p -> ~ In 95 p -> forall q s, like (p ++ q) s = true <-> exists a b, s = a ++ b /\ Forall2 same_letter a p /\ like q b = true.
Proof.
  induction p as [|c p IH]; intros A B q s.
  - split; [intros H; exists [], s; repeat split; [constructor|exact H]|]. intros (a & b & -> & H & K). inversion H; subst. exact K.
  - cbn [app like]. replace (c =? 37) with false by (destruct (c =? 37) eqn:E; [exfalso; apply A; left; lia|reflexivity]).
    replace (c =? 95) with false by (destruct (c =? 95) eqn:E; [exfalso; apply B; left; lia|reflexivity]). cbn [orb]. destruct s as [|x s].
    + split; [discriminate|]. intros (a & b & E & H & K). inversion H; subst. discriminate.
    + rewrite andb_true_iff, IH by (intros K; first [apply A; right; exact K|apply B; right; exact K]). rewrite Z.eqb_eq, upc_same. split.
      * intros (S1 & a & b & -> & H & K). exists (x :: a), b. repeat split; [constructor; assumption|exact K].
      * intros (a & b & E & H & K). inversion H as [|y ? a' ? Hy Ha]; subst. cbn [app] in E. injection E as -> ->. split; [exact Hy|]. exists a', b. repeat split; assumption.
Qed.
Lemma like_contains p s : ~ In 37 p -> ~ In 95 p -> like (37 :: p ++ [37]) s = true <-> contains_nocase s p.
Proof.
  intros A B. rewrite like_any. unfold contains_nocase. split.
  - intros (a & b & -> & H). apply like_text in H; [|exact A|exact B]. destruct H as (c & d & -> & F & _). exists a, c, d. split; [reflexivity|exact F].
  - intros (a & b & c & -> & F). exists a, (b ++ c). split; [reflexivity|]. apply like_text; [exact A|exact B|]. exists b, c. split; [reflexivity|]. split; [exact F|]. apply like_any. exists c, []. split; [rewrite app_nil_r; reflexivity|reflexivity].
Qed.
Lemma find_out_eq pat r : no_nul pat -> ~ In 34 pat -> find_out pat r = concat (map find_line (filter (fun row => like (37 :: pat ++ [37]) (fst row)) r)).
Proof.
  intros N Q. unfold find_out, find_cmd.
  assert (NN : no_nul (lit "SELECT KEYSTRING,VALUESTRING FROM CONFIG WHERE KEYSTRING LIKE ""%" ++ pat ++ lit "%""")).
  { intros K. apply in_app_iff in K. destruct K as [K|K]; [revert K; apply no_nul_lit; reflexivity|]. apply in_app_iff in K. destruct K as [K|K]; [exact (N K)|revert K; apply no_nul_lit; reflexivity]. }
  rewrite c_str_id by exact NN. clear NN.
  replace (lit "SELECT KEYSTRING,VALUESTRING FROM CONFIG WHERE KEYSTRING LIKE ""%" ++ pat ++ lit "%""") with (lit "SELECT KEYSTRING,VALUESTRING FROM CONFIG WHERE KEYSTRING LIKE """ ++ (37 :: pat ++ [37]) ++ [34]).
  2:{ change (lit "SELECT KEYSTRING,VALUESTRING FROM CONFIG WHERE KEYSTRING LIKE ""%") with (lit "SELECT KEYSTRING,VALUESTRING FROM CONFIG WHERE KEYSTRING LIKE """ ++ [37]). rewrite <- !app_assoc. cbn [app]. rewrite <- app_assoc. reflexivity. }
  unfold lex. rewrite lex_app.
  change (lexrun LStart (lit "SELECT KEYSTRING,VALUESTRING FROM CONFIG WHERE KEYSTRING LIKE """)) with
    (Some ([Word (lit "SELECT"); Word (lit "KEYSTRING"); Punct 44; Word (lit "VALUESTRING"); Word (lit "FROM"); Word (lit "CONFIG"); Word (lit "WHERE"); Word (lit "KEYSTRING"); Word (lit "LIKE")], LDq [])).
  cbv iota beta. rewrite lex_dq, lex_dq_last.
  - cbn [app words]. rewrite !weqb_refl. change (44 =? 44) with true. cbv iota. reflexivity.
  - intros [K|K]; [discriminate|]. apply in_app_iff in K. destruct K as [K|[K|[]]]; [exact (Q K)|discriminate].
Qed.

(** ** Lists of valid values *)
Lemma lines_cons t l : lines (t :: l) = t ++ 10 :: lines l.
Proof. unfold lines. cbn [map concat]. rewrite <- app_assoc. reflexivity. Qed.
Lemma u64_id z : 0 <= z < 2 ^ 64 -> u64 z = z.
Proof. intros H. unfold u64. apply Z.mod_small. exact H. Qed.
(** One step over [a sep d] where the separator is looked for first. *)
Lemma pair_step p a sep d r : ~ In sep a -> ~ In 44 a -> ~ In 44 d -> sep <> 44 -> r = [] \/ (exists t, r = 44 :: t) -> len (p ++ a ++ sep :: d ++ r) < 2 ^ 31 ->
  let tmp := p ++ a ++ sep :: d ++ r in
  let e := u32 (find tmp sep (len p)) in
  e = len p + len a /\ substr tmp (len p) (u32 (e - len p)) = Ok a /\ substr tmp (u32 (e + 1)) (u64 (find tmp 44 e - e - 1)) = Ok d /\
  s32 (find tmp 44 (len p)) = match r with [] => -1 | _ => len p + len a + 1 + len d end.
Proof.
  intros S1 A44 D44 NE R L. cbv zeta. pose proof (len_nonneg p). pose proof (len_nonneg a). pose proof (len_nonneg d). pose proof (len_nonneg r). rewrite len_app, len_app, len_cons, len_app in L.
  rewrite find_at by exact S1. rewrite (u32_id (len p + len a)) by lia. split; [reflexivity|]. split; [rewrite u32_id by lia; apply substr_at; lia|].
  assert (N44 : ~ In 44 (a ++ sep :: d)).
  { intros K. apply in_app_iff in K. destruct K as [K|[K|K]]; [exact (A44 K)|exact (NE K)|exact (D44 K)]. }
  assert (M44 : ~ In 44 (sep :: d)) by (intros [K|K]; [exact (NE K)|exact (D44 K)]).
  rewrite (u32_id (len p + len a + 1)) by lia. split.
  - replace (p ++ a ++ sep :: d ++ r) with ((p ++ a) ++ (sep :: d) ++ r) by (rewrite <- app_assoc; reflexivity). rewrite <- len_app.
    assert (F : substr ((p ++ a) ++ (sep :: d) ++ r) (len (p ++ a) + 1) (u64 (find ((p ++ a) ++ (sep :: d) ++ r) 44 (len (p ++ a)) - len (p ++ a) - 1)) = Ok d); [|exact F].
    replace (len (p ++ a) + 1) with (len ((p ++ a) ++ [sep])) by (rewrite (len_app (p ++ a)); reflexivity).
    destruct R as [->|(t & ->)].
    + rewrite app_nil_r. rewrite find_none by exact M44. replace ((p ++ a) ++ sep :: d) with (((p ++ a) ++ [sep]) ++ d) by (rewrite <- app_assoc; reflexivity).
      apply substr_rest. rewrite u64_id; rewrite len_app; unfold npos; lia.
    + rewrite find_at by exact M44. replace ((p ++ a) ++ (sep :: d) ++ 44 :: t) with (((p ++ a) ++ [sep]) ++ d ++ 44 :: t) by (rewrite <- app_assoc; reflexivity).
      apply substr_at. rewrite len_cons. rewrite u64_id; lia.
  - replace (a ++ sep :: d ++ r) with ((a ++ sep :: d) ++ r) by (rewrite <- app_assoc; reflexivity). destruct R as [->|(t & ->)].
    + rewrite app_nil_r, find_none by exact N44. apply s32_npos.
    + rewrite find_at by exact N44. rewrite len_app, len_cons. rewrite s32_id by lia. lia.
Qed.
Lemma join_cons {A} (f : A -> list Z) x l : exists r, join_with 44 (map f (x :: l)) = f x ++ r /\ (l = [] /\ r = [] \/ l <> [] /\ r = 44 :: join_with 44 (map f l)).
Proof.
  destruct l as [|y l]; [exists []; split; [cbn [map join_with]; rewrite app_nil_r; reflexivity|left; split; reflexivity]|].
  exists (44 :: join_with 44 (map f (y :: l))). split; [reflexivity|right; split; [discriminate|reflexivity]].
Qed.
Lemma range_text l : forall fuel p, l <> [] -> Forall (fun e => free_of [44; 58] (fst e) /\ free_of [44; 58] (snd e)) l ->
  len (p ++ ranges l) < 2 ^ 31 -> (length (ranges l) < fuel)%nat ->
  range_lines fuel (p ++ ranges l) (len p - 1) = Ok (lines (map (fun e => valid_line ++ lit "from " ++ fst e ++ lit " to " ++ snd e) l)).
Proof.
  unfold ranges. induction l as [|[a d] l IH]; intros fuel p NE H L F; [contradiction NE; reflexivity|]. inversion H as [|? ? [Ha Hd] Hl]; subst. cbn [fst snd] in Ha, Hd.
  destruct fuel as [|fuel]; [lia|]. destruct (join_cons (fun e : list Z * list Z => fst e ++ 58 :: snd e) (a, d) l) as (r & E & R). rewrite E in *. cbn [fst snd] in *. rewrite <- app_assoc in *. cbn [app] in *.
  cbn [range_lines]. replace (len p - 1 + 1) with (len p) by lia.
  destruct (pair_step p a 58 d r ltac:(apply Ha; cbn; tauto) ltac:(apply Ha; cbn; tauto) ltac:(apply Hd; cbn; tauto) ltac:(discriminate) ltac:(destruct R as [[_ ->]|[_ ->]]; [left; reflexivity|right; eexists; reflexivity]) L) as (E1 & E2 & E3 & E4).
  rewrite E2. cbn [bind]. rewrite E3. cbn [bind]. rewrite E4. cbn [map]. rewrite lines_cons. cbn [fst snd]. destruct R as [[-> ->]|[NEl ->]].
  - change (-1 =? -1) with true. cbv iota. unfold nl. change (lines (map _ [])) with (@nil Z). rewrite <- !app_assoc. reflexivity.
  - pose proof (len_nonneg p). pose proof (len_nonneg a). pose proof (len_nonneg d). replace (len p + len a + 1 + len d =? -1) with false by lia.
    replace (p ++ a ++ 58 :: d ++ 44 :: join_with 44 (map (fun e => fst e ++ 58 :: snd e) l)) with ((p ++ a ++ 58 :: d ++ [44]) ++ join_with 44 (map (fun e => fst e ++ 58 :: snd e) l)) in * by (rewrite <- !app_assoc; cbn [app]; rewrite <- !app_assoc; reflexivity).
    replace (len p + len a + 1 + len d) with (len (p ++ a ++ 58 :: d ++ [44]) - 1) by (rewrite !len_app, len_cons, len_app; change (len [44]) with 1; lia).
    rewrite IH; [|exact NEl|exact Hl|exact L|rewrite app_length in F; cbn [length] in F; rewrite app_length in F; cbn [length] in F; lia]. cbn [bind]. unfold nl. rewrite <- !app_assoc. reflexivity.
Qed.
Lemma choice_text l : forall fuel p, l <> [] -> Forall (fun e => free_of [44; 124] (fst e) /\ free_of [44; 124] (snd e)) l ->
  len (p ++ described l) < 2 ^ 31 -> (length (described l) < fuel)%nat ->
  choice_lines fuel (p ++ described l) (len p - 1) = Ok (lines (map (fun e => valid_line ++ fst e ++ lit " = " ++ snd e) l)).
Proof.
  unfold described. induction l as [|[a d] l IH]; intros fuel p NE H L F; [contradiction NE; reflexivity|]. inversion H as [|? ? [Ha Hd] Hl]; subst. cbn [fst snd] in Ha, Hd.
  destruct fuel as [|fuel]; [lia|]. destruct (join_cons (fun e : list Z * list Z => fst e ++ 124 :: snd e) (a, d) l) as (r & E & R). rewrite E in *. cbn [fst snd] in *. rewrite <- app_assoc in *. cbn [app] in *.
  cbn [choice_lines]. replace (len p - 1 + 1) with (len p) by lia.
  destruct (pair_step p a 124 d r ltac:(apply Ha; cbn; tauto) ltac:(apply Ha; cbn; tauto) ltac:(apply Hd; cbn; tauto) ltac:(discriminate) ltac:(destruct R as [[_ ->]|[_ ->]]; [left; reflexivity|right; eexists; reflexivity]) L) as (E1 & E2 & E3 & E4).
  assert (LL : len p + len a < 2 ^ 31) by (rewrite !len_app, len_cons in L; pose proof (len_nonneg d); pose proof (len_nonneg r); rewrite len_app in L; lia).
  pose proof (len_nonneg p). pose proof (len_nonneg a). pose proof (len_nonneg d).
  replace (u32 (find (p ++ a ++ 124 :: d ++ r) 124 (len p)) =? npos) with false by (rewrite E1; unfold npos; lia). cbn [negb].
  rewrite E2. cbn [bind]. rewrite E3. cbn [bind]. rewrite E4. cbn [map]. rewrite lines_cons. cbn [fst snd]. destruct R as [[-> ->]|[NEl ->]].
  - change (-1 =? -1) with true. cbv iota. unfold nl. change (lines (map _ [])) with (@nil Z). rewrite <- !app_assoc. reflexivity.
  - replace (len p + len a + 1 + len d =? -1) with false by lia.
    replace (p ++ a ++ 124 :: d ++ 44 :: join_with 44 (map (fun e => fst e ++ 124 :: snd e) l)) with ((p ++ a ++ 124 :: d ++ [44]) ++ join_with 44 (map (fun e => fst e ++ 124 :: snd e) l)) in * by (rewrite <- !app_assoc; cbn [app]; rewrite <- !app_assoc; reflexivity).
    replace (len p + len a + 1 + len d) with (len (p ++ a ++ 124 :: d ++ [44]) - 1) by (rewrite !len_app, len_cons, len_app; change (len [44]) with 1; lia).
    rewrite IH; [|exact NEl|exact Hl|exact L|rewrite app_length in F; cbn [length] in F; rewrite app_length in F; cbn [length] in F; lia]. cbn [bind]. unfold nl. rewrite <- !app_assoc. reflexivity.
Qed.
(** Without descriptions each line has all that follows, and then the whole list. *)
Lemma choice_text_plain l : forall fuel p, l <> [] -> Forall (free_of [44; 124]) l -> ~ In 124 p -> len (p ++ join_with 44 l) < 2 ^ 31 -> (length (join_with 44 l) < fuel)%nat ->
  choice_lines fuel (p ++ join_with 44 l) (len p - 1) = Ok (lines (map (fun t => valid_line ++ t ++ lit " = " ++ p ++ join_with 44 l) (tails l))).
Proof.
  induction l as [|a l IH]; intros fuel p NE H NP L F; [contradiction NE; reflexivity|]. inversion H as [|? ? Ha Hl]; subst.
  destruct fuel as [|fuel]; [lia|]. cbn [choice_lines tails map]. rewrite lines_cons. replace (len p - 1 + 1) with (len p) by lia. pose proof (len_nonneg p).
  assert (N124 : ~ In 124 (join_with 44 (a :: l))).
  { apply join_free; [discriminate|]. eapply Forall_impl; [|exact H]. intros w Hw. cbv beta in Hw. apply Hw. cbn [In]. tauto. }
  rewrite find_none by exact N124. rewrite u32_npos. replace (2 ^ 32 - 1 =? npos) with false by reflexivity. cbn [negb]. pose proof (len_nonneg (join_with 44 (a :: l))). rewrite len_app in L.
  rewrite u32_id by lia. rewrite substr_rest by lia. cbn [bind]. change (u32 (2 ^ 32 - 1 + 1)) with 0.
  assert (FN : find (p ++ join_with 44 (a :: l)) 44 (2 ^ 32 - 1) = npos).
  { unfold find. replace (drop (2 ^ 32 - 1) (p ++ join_with 44 (a :: l))) with (@nil Z); [reflexivity|]. symmetry.
    assert (X : forall s n, len s <= n -> drop n s = []).
    { clear. induction s as [|c s IHs]; intros n H; [reflexivity|]. rewrite len_cons in H. pose proof (len_nonneg s). cbn [drop]. replace (n <=? 0) with false by lia. apply IHs. lia. }
    apply X. rewrite len_app. lia. }
  rewrite FN. rewrite substr0_rest by (rewrite len_app; rewrite u64_id; unfold npos; lia). cbn [bind].
  pose proof (Ha 44 ltac:(left; reflexivity)) as N44. destruct l as [|b l].
  - cbn [join_with tails map]. rewrite find_none by exact N44. rewrite s32_npos. change (-1 =? -1) with true. cbv iota. unfold nl. change (lines []) with (@nil Z). rewrite <- !app_assoc. reflexivity.
  - change (join_with 44 (a :: b :: l)) with (a ++ 44 :: join_with 44 (b :: l)) in *. rewrite len_app, len_cons in *. pose proof (len_nonneg a). pose proof (len_nonneg (join_with 44 (b :: l))).
    rewrite find_at by exact N44. rewrite s32_id by lia. replace (len p + len a =? -1) with false by lia.
    replace (p ++ a ++ 44 :: join_with 44 (b :: l)) with ((p ++ a ++ [44]) ++ join_with 44 (b :: l)) by (rewrite <- !app_assoc; reflexivity).
    replace (len p + len a) with (len (p ++ a ++ [44]) - 1) by (rewrite !len_app; change (len [44]) with 1; lia).
    rewrite IH; [|discriminate|exact Hl| | |].
    + cbn [bind]. unfold nl. f_equal. rewrite <- !app_assoc. reflexivity.
    + intros K. apply in_app_iff in K. destruct K as [K|K]; [exact (NP K)|]. apply in_app_iff in K. destruct K as [K|[K|[]]]; [apply (Ha 124); [cbn; tauto|exact K]|discriminate].
    + rewrite !len_app. change (len [44]) with 1. lia.
    + rewrite app_length in F. cbn [length] in F. lia.
Qed.

(** ** Scopes *)
Definition pick (b : bool) (t : list Z) : list (list Z) := if b then [t] else [].
Lemma pick_in b t x : In x (pick b t) <-> b = true /\ t = x.
Proof. unfold pick. destruct b; cbn [In]; split; try tauto; intros [Q _]; discriminate. Qed.
Lemma pick_lines label b t : (if negb b then [] else label ++ t ++ [10]) = lines (map (app label) (pick b t)).
Proof. destruct b; [|reflexivity]. cbn [negb pick map]. rewrite lines_cons, <- app_assoc. reflexivity. Qed.
Lemma lines_app a b : lines (a ++ b) = lines a ++ lines b.
Proof. unfold lines. rewrite map_app, concat_app. reflexivity. Qed.
Lemma picks b0 b1 b2 b3 b4 b5 t0 t1 t2 t3 t4 t5 : NoDup [t0; t1; t2; t3; t4; t5] ->
  let s := pick b0 t0 ++ pick b1 t1 ++ pick b2 t2 ++ pick b3 t3 ++ pick b4 t4 ++ pick b5 t5 in
  (In t0 s <-> b0 = true) /\ (In t1 s <-> b1 = true) /\ (In t2 s <-> b2 = true) /\ (In t3 s <-> b3 = true) /\ (In t4 s <-> b4 = true) /\ (In t5 s <-> b5 = true) /\ (length s <= 6)%nat.
Proof.
  intros D. cbv zeta. rewrite !in_app_iff, !pick_in. repeat match goal with H : NoDup (_ :: _) |- _ => inversion H; clear H; subst end. cbn [In] in *.
  assert (PL : forall b t, (length (pick b t) <= 1)%nat) by (intros b t; destruct b; cbn [pick length]; lia).
  split; [|split; [|split; [|split; [|split; [|split]]]]].
  1-6: split; [intros K; repeat (destruct K as [K|K]); destruct K as [K1 K2]; try exact K1; exfalso; intuition congruence|tauto].
  rewrite !app_length. pose proof (PL b0 t0). pose proof (PL b1 t1). pose proof (PL b2 t2). pose proof (PL b3 t3). pose proof (PL b4 t4). pose proof (PL b5 t5). lia.
Qed.
Fixpoint distinct (l : list (list Z)) : bool := match l with [] => true | x :: t => negb (existsb (weqb x) t) && distinct t end.
Lemma distinct_nodup l : distinct l = true -> NoDup l.
Proof.
  induction l as [|x l IH]; intros H; [constructor|]. cbn [distinct] in H. apply andb_true_iff in H. destruct H as [A B]. constructor; [|exact (IH B)]. intros K.
  apply negb_true_iff in A. assert (existsb (weqb x) l = true) by (apply existsb_exists; exists x; split; [exact K|apply weqb_refl]). congruence.
Qed.
