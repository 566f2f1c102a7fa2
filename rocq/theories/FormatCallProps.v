(** C111: calls of format with arguments of C++ types *)
From Verif Require Import Base BaseFacts UtilsModel UtilsSpec UtilsProps SqlProofs PrintfModel PrintfProps FormatCallModel.
Local Open Scope Z_scope.

(** ** Specification *)

(** The eight lists of parameters. *)
Definition shapes : list (list param) :=
  [[PString]; [PString; PString]; [PString; PString; PString]; [PString; PString; PString; PString];
   [PString; PInt]; [PInt; PString]; [PString; PString; PInt]; [PString; PString; PInt; PInt]].
(** A std::string can be made of a std::string, a C string and the literal 0, an int of any number. *)
Definition accepts (p : param) (v : value) : Prop :=
  match p with
  | PString => match v with VString _ | VChars _ | VZero => True | _ => False end
  | PInt => match v with VString _ | VChars _ | VPointer => False | _ => True end
  end.
Definition fits (ps : list param) (vs : list value) : Prop := In ps shapes /\ Forall2 accepts ps vs.
(** Of those that fit, the one that takes each literal 0 as a number where another one does. *)
Definition chosen (ps : list param) (vs : list value) : Prop :=
  fits ps vs /\ forall qs i, fits qs vs -> nth_error vs i = Some VZero -> nth_error qs i = Some PInt -> nth_error ps i = Some PInt.
(** The arguments as printf is to see them. *)
Definition plain (v : value) : arg :=
  match v with
  | VString s => AStr (Some s)
  | VChars s => AStr s
  | VInt z | VSmall z | VUnsigned z => AInt z
  | VZero => AInt 0
  | VLong z | VULong z => ALong z
  | VDouble _ | VPointer => AOther
  end.
(** Texts and numbers that are ints. *)
Definition clear (v : value) : Prop :=
  match v with
  | VString _ | VChars (Some _) | VInt _ | VSmall _ => True
  | VUnsigned z => 0 <= z < 2 ^ 31
  | _ => False
  end.
Definition no_strings (vs : list value) : Prop := forall s, ~ In (VString s) vs.
(** What a parameter makes of an argument: of a number the int equal to it modulo 2^32, of a double its whole part. *)
Inductive made : param -> value -> arg -> Prop :=
| MString s : made PString (VString s) (AStr (Some s))
| MChars s : made PString (VChars (Some s)) (AStr (Some s))
| MInt z : made PInt (VInt z) (AInt z)
| MSmall z : made PInt (VSmall z) (AInt z)
| MZero : made PInt VZero (AInt 0)
| MUnsigned z k : - 2 ^ 31 <= z + k * 2 ^ 32 < 2 ^ 31 -> made PInt (VUnsigned z) (AInt (z + k * 2 ^ 32))
| MLong z k : - 2 ^ 31 <= z + k * 2 ^ 32 < 2 ^ 31 -> made PInt (VLong z) (AInt (z + k * 2 ^ 32))
| MULong z k : - 2 ^ 31 <= z + k * 2 ^ 32 < 2 ^ 31 -> made PInt (VULong z) (AInt (z + k * 2 ^ 32))
| MDouble t : made PInt (VDouble (Some t)) (AInt t).
Inductive made_all : list param -> list value -> list arg -> Prop :=
| MNone : made_all [] [] []
| MOne p ps v vs a l : made p v a -> made_all ps vs l -> made_all (p :: ps) (v :: vs) (a :: l).
(** A null pointer where a std::string is to be made. *)
Definition null_at (ps : list param) (vs : list value) : Prop :=
  exists i, nth_error ps i = Some PString /\ (nth_error vs i = Some VZero \/ nth_error vs i = Some (VChars None)).
(** A double outside the range of int where an int is to be made. *)
Definition beyond_at (ps : list param) (vs : list value) : Prop :=
  exists i, nth_error ps i = Some PInt /\ nth_error vs i = Some (VDouble None).

(** ** The choice, by trying all lists of at most four types *)

Definition all_types : list type := [TString; TChars; TInt; TZero; TSmall; TUnsigned; TLong; TULong; TDouble; TPointer].
Fixpoint all_lists (n : nat) : list (list type) :=
  match n with O => [[]] | S n => flat_map (fun l => map (fun t => t :: l) all_types) (all_lists n) end.
Lemma all_lists_in ts : In ts (all_lists (length ts)).
Proof.
  induction ts as [|t ts IH]; [left; reflexivity|]. cbn [length all_lists]. apply in_flat_map. exists ts. split; [exact IH|].
  apply in_map_iff. exists t. split; [reflexivity|]. destruct t; cbn; tauto.
Qed.
Definition acceptsb (p : param) (t : type) : bool :=
  match p with
  | PString => match t with TString | TChars | TZero => true | _ => false end
  | PInt => match t with TString | TChars | TPointer => false | _ => true end
  end.
Fixpoint fitsb (ps : list param) (ts : list type) : bool :=
  match ps, ts with [], [] => true | p :: ps, t :: ts => acceptsb p t && fitsb ps ts | _, _ => false end.
Fixpoint zerosb (ps qs : list param) (ts : list type) : bool :=
  match ps, qs, ts with
  | p :: ps, q :: qs, t :: ts => match t, q, p with TZero, PInt, PString => false | _, _, _ => true end && zerosb ps qs ts
  | _, _, _ => true
  end.
Definition chosenb (ps : list param) (ts : list type) : bool :=
  fitsb ps ts && forallb (fun qs => negb (fitsb qs ts) || zerosb ps qs ts) shapes.
Definition param_eqb (p q : param) : bool := match p, q with PString, PString | PInt, PInt => true | _, _ => false end.
Fixpoint params_eqb (ps qs : list param) : bool :=
  match ps, qs with [], [] => true | p :: ps, q :: qs => param_eqb p q && params_eqb ps qs | _, _ => false end.
Definition zero_zero (ts : list type) : bool := match ts with [TZero; TZero] => true | _ => false end.
Definition check (ts : list type) : bool :=
  match resolve ts with
  | Some (Params ps) => existsb (params_eqb ps) shapes && chosenb ps ts && forallb (fun qs => negb (chosenb qs ts) || params_eqb qs ps) shapes && negb (zero_zero ts)
  | Some Dots => forallb (fun qs => negb (fitsb qs ts)) shapes
  | None => forallb (fun qs => negb (chosenb qs ts)) shapes && existsb (fun qs => fitsb qs ts) shapes && zero_zero ts
  end.
Lemma check_four : forallb (fun n => forallb check (all_lists n)) [0; 1; 2; 3; 4]%nat = true.
Proof. vm_compute. reflexivity. Qed.
Lemma check_all ts : check ts = true.
Proof.
  destruct (Nat.le_gt_cases (length ts) 4) as [L|L].
  - pose proof check_four as C. rewrite forallb_forall in C. specialize (C (length ts)).
    assert (I : In (length ts) [0; 1; 2; 3; 4]%nat) by (cbn [In]; lia). specialize (C I). rewrite forallb_forall in C. apply C, all_lists_in.
  - destruct ts as [|a [|b [|c [|d [|e ts]]]]]; cbn [length] in L; try lia.
    assert (N : forall p1 p2 p3 p4 t1 t2 t3 t4 t5 l, ranks [p1; p2; p3; p4] (t1 :: t2 :: t3 :: t4 :: t5 :: l) = None).
    { intros. cbn [ranks]. destruct (rank p4 t4), (rank p3 t3), (rank p2 t2), (rank p1 t1); reflexivity. }
    assert (R : resolve (a :: b :: c :: d :: e :: ts) = Some Dots).
    { unfold resolve. assert (F : fitting functions (a :: b :: c :: d :: e :: ts) = [(Dots, map (fun _ => 4%nat) (a :: b :: c :: d :: e :: ts))]).
      { unfold functions. cbn [fitting viable]. rewrite !N. cbn [ranks].
        destruct (rank PString a), (rank PInt a); cbn beta iota; try reflexivity; destruct (rank PString b), (rank PInt b); cbn beta iota; try reflexivity;
          destruct (rank PString c), (rank PInt c); cbn beta iota; reflexivity. }
      rewrite F. reflexivity. }
    unfold check. rewrite R. cbn [shapes forallb fitsb]. rewrite !andb_false_r. reflexivity.
Qed.

Lemma accepts_b p v : accepts p v <-> acceptsb p (type_of v) = true.
Proof. destruct p, v; cbn; split; try tauto; try discriminate; reflexivity. Qed.
Lemma fits_b ps vs : fitsb ps (map type_of vs) = true <-> Forall2 accepts ps vs.
Proof.
  revert vs. induction ps as [|p ps IH]; intros [|v vs]; cbn [fitsb map].
  - split; [constructor|reflexivity].
  - split; [discriminate|inversion 1].
  - split; [discriminate|inversion 1].
  - rewrite andb_true_iff, IH, <- accepts_b. split; [intros [A B]; constructor; assumption|inversion 1; split; assumption].
Qed.
Lemma zeros_b ps qs vs : Forall2 accepts ps vs -> Forall2 accepts qs vs ->
  (zerosb ps qs (map type_of vs) = true <-> forall i, nth_error vs i = Some VZero -> nth_error qs i = Some PInt -> nth_error ps i = Some PInt).
Proof.
  intros A. revert qs. induction A as [|p v ps vs P A IH]; intros qs B; inversion B as [|q v' qs' vs' Q B']; subst.
  - split; [intros _ [|i]; discriminate|reflexivity].
  - cbn [zerosb map]. rewrite andb_true_iff, (IH _ B'). split.
    + intros [H K] [|i]; cbn [nth_error]; [|apply K]. intros E F. injection E as ->. injection F as ->. cbn in H. destruct p; [discriminate|reflexivity].
    + intros H. split; [|intros i; exact (H (S i))]. specialize (H 0%nat). cbn [nth_error] in H.
      destruct v; cbn [type_of]; try reflexivity. destruct q; [reflexivity|]. specialize (H eq_refl eq_refl). injection H as ->. reflexivity.
Qed.
Lemma chosen_b ps vs : In ps shapes -> chosenb ps (map type_of vs) = true <-> chosen ps vs.
Proof.
  intros I. unfold chosenb, chosen, fits. rewrite andb_true_iff, fits_b, forallb_forall. split.
  - intros [F H]. split; [split; assumption|]. intros qs i [J G]. specialize (H qs J). apply orb_true_iff in H. destruct H as [H|H].
    + apply fits_b in G. rewrite G in H. discriminate.
    + revert i. apply zeros_b; assumption.
  - intros [[_ F] H]. split; [exact F|]. intros qs J. destruct (fitsb qs (map type_of vs)) eqn:G; [|reflexivity]. cbn [negb orb].
    apply fits_b in G. apply zeros_b; [exact F|exact G|]. intros i. apply H. split; assumption.
Qed.
Lemma params_eqb_eq ps qs : params_eqb ps qs = true <-> ps = qs.
Proof.
  revert qs. induction ps as [|p ps IH]; intros [|q qs]; cbn [params_eqb]; try (split; [discriminate|discriminate]); [split; reflexivity|].
  rewrite andb_true_iff, IH. split; [intros [A B]; destruct p, q; try discriminate; subst; reflexivity|]. intros E. injection E as -> ->. split; [destruct q|]; reflexivity.
Qed.
Lemma zero_zero_b vs : zero_zero (map type_of vs) = true <-> vs = [VZero; VZero].
Proof.
  destruct vs as [|a [|b [|c vs]]]; cbn [map zero_zero]; split; intros H; try discriminate; try (destruct a; discriminate); try (destruct a, b; discriminate).
  - destruct a, b; try discriminate. reflexivity.
  - injection H as -> ->. reflexivity.
Qed.

(** ** C111 *)

(** Which function a call means. *)
Theorem C111_choice vs ps : resolve (map type_of vs) = Some (Params ps) <-> chosen ps vs.
Proof.
  pose proof (check_all (map type_of vs)) as C. unfold check in C. split.
  - intros R. rewrite R in C. rewrite !andb_true_iff in C. destruct C as [[[I C] _] _]. apply existsb_exists in I. destruct I as (qs & I & E). apply params_eqb_eq in E. subst qs.
    apply chosen_b; assumption.
  - intros H. assert (I : In ps shapes) by (destruct H as [[I _] _]; exact I). pose proof (proj2 (chosen_b ps vs I) H) as B.
    destruct (resolve (map type_of vs)) as [[|qs]|].
    + rewrite forallb_forall in C. specialize (C ps I). destruct H as [[_ F] _]. apply fits_b in F. rewrite F in C. discriminate.
    + rewrite !andb_true_iff in C. destruct C as [[_ C] _]. rewrite forallb_forall in C. specialize (C ps I). rewrite B in C. cbn [negb orb] in C. apply params_eqb_eq in C. subst. reflexivity.
    + rewrite !andb_true_iff in C. destruct C as [[C _] _]. rewrite forallb_forall in C. specialize (C ps I). rewrite B in C. discriminate.
Qed.
Print Assumptions C111_choice.
Lemma dots_iff vs : resolve (map type_of vs) = Some Dots <-> forall ps, ~ fits ps vs.
Proof.
  pose proof (check_all (map type_of vs)) as C. unfold check in C. split.
  - intros R ps [I F]. rewrite R in C. rewrite forallb_forall in C. specialize (C ps I). apply fits_b in F. rewrite F in C. discriminate.
  - intros N. destruct (resolve (map type_of vs)) as [[|qs]|] eqn:R; [reflexivity| |].
    + apply C111_choice in R. destruct R as [R _]. destruct (N _ R).
    + rewrite !andb_true_iff in C. destruct C as [[_ C] _]. apply existsb_exists in C. destruct C as (qs & I & F). apply fits_b in F. destruct (N qs). split; assumption.
Qed.
Lemma none_iff vs : resolve (map type_of vs) = None <-> vs = [VZero; VZero].
Proof.
  split.
  - intros R. pose proof (check_all (map type_of vs)) as C. unfold check in C. rewrite R, !andb_true_iff in C. apply zero_zero_b, C.
  - intros ->. vm_compute. reflexivity.
Qed.
Lemma strings_b vs : existsb is_string (map type_of vs) = false <-> no_strings vs.
Proof.
  unfold no_strings. split.
  - intros H s I. rewrite <- not_true_iff_false in H. apply H. apply existsb_exists. exists TString. split; [|reflexivity]. apply in_map_iff. exists (VString s). split; [reflexivity|exact I].
  - intros H. apply not_true_iff_false. intros E. apply existsb_exists in E. destruct E as (t & I & E). apply in_map_iff in I. destruct I as (v & <- & I). destruct v; try discriminate. exact (H _ I).
Qed.
(** A call is refused exactly with two literal zeros, or with a std::string among arguments that fit no list of parameters. *)
Theorem C111_refused fmt vs : call fmt vs = Reject <-> vs = [VZero; VZero] \/ (~ no_strings vs /\ forall ps, ~ fits ps vs).
Proof.
  unfold call. destruct (resolve (map type_of vs)) as [[|ps]|] eqn:R.
  - pose proof (proj1 (dots_iff vs) R) as N. destruct (existsb is_string (map type_of vs)) eqn:E.
    + split; [intros _; right; split; [|exact N]|reflexivity]. intros K. apply strings_b in K. rewrite K in E. discriminate.
    + split; [discriminate|]. intros [->|[K _]]; [discriminate|]. apply strings_b in E. contradiction.
  - pose proof (proj1 (C111_choice vs ps) R) as C. split.
    + destruct (pass_all ps vs); discriminate.
    + intros [->|[_ K]]; [discriminate|]. destruct (K ps). exact (proj1 C).
  - split; [|reflexivity]. intros _. left. apply none_iff, R.
Qed.
Print Assumptions C111_refused.

(** Cutting the texts at their first zero byte makes no difference to printf. *)
Definition trim (a : arg) : arg := match a with AStr (Some s) => AStr (Some (c_str s)) | _ => a end.
Lemma c_str_twice s : c_str (c_str s) = c_str s.
Proof. apply c_str_id. destruct (visible_of s) as [N _]. exact N. Qed.
Lemma integer_trim a l s : integer (trim a) l s = integer a l s.
Proof. destruct a as [z|z|[t|]|]; reflexivity. Qed.
Definition trimmed {A} (r : res (A * list arg)) : res (A * list arg) := do (x, l) <- r; Ok (x, map trim l).
Lemma value_of_trim n l : value_of n (map trim l) = trimmed (value_of n l).
Proof. destruct n; [reflexivity|]. destruct l as [|a l]; [reflexivity|]. cbn [value_of take map bind]. rewrite integer_trim. unfold trimmed. destruct (integer a false true); reflexivity. Qed.
Lemma precision_of_trim p l : precision_of p (map trim l) = trimmed (precision_of p l).
Proof. destruct p as [n|]; [|reflexivity]. cbn [precision_of]. rewrite value_of_trim. unfold trimmed. destruct (value_of n l) as [[z r]| | |]; reflexivity. Qed.
Lemma convert_trim d l : convert d (map trim l) = trimmed (convert d l).
Proof.
  unfold convert. rewrite value_of_trim. unfold trimmed at 1. destruct (value_of (width d) l) as [[w l1]| | |]; cbn [bind]; try reflexivity.
  rewrite precision_of_trim. unfold trimmed at 1. destruct (precision_of (precision d) l1) as [[p l2]| | |]; cbn [bind]; try reflexivity.
  cbv zeta.
  destruct ((conversion d =? 100) || (conversion d =? 105)); [destruct l2 as [|a l2]; [reflexivity|]; cbn [map take bind]; rewrite integer_trim; destruct (integer a (long d) true); reflexivity|].
  destruct (conversion d =? 117); [destruct l2 as [|a l2]; [reflexivity|]; cbn [map take bind]; rewrite integer_trim; destruct (integer a (long d) false); reflexivity|].
  destruct (conversion d =? 120); [destruct l2 as [|a l2]; [reflexivity|]; cbn [map take bind]; rewrite integer_trim; destruct (integer a (long d) false); reflexivity|].
  destruct (conversion d =? 88); [destruct l2 as [|a l2]; [reflexivity|]; cbn [map take bind]; rewrite integer_trim; destruct (integer a (long d) false); reflexivity|].
  destruct ((conversion d =? 99) && negb (long d) && negb (zero d) && match p with None => true | Some _ => false end);
    [destruct l2 as [|a l2]; [reflexivity|]; cbn [map take bind]; rewrite integer_trim; destruct (integer a false true); reflexivity|].
  destruct ((conversion d =? 115) && negb (long d) && negb (zero d)); [|reflexivity].
  destruct l2 as [|a l2]; [reflexivity|]. cbn [map take bind]. destruct a as [z|z|[s|]|]; cbn [trim]; try reflexivity. rewrite c_str_twice. reflexivity.
Qed.
Lemma print_trim fuel : forall f l, print fuel f (map trim l) = print fuel f l.
Proof.
  induction fuel as [|k IH]; intros f l; [reflexivity|]. cbn [print]. destruct f as [|c t]; [reflexivity|]. destruct (c =? 37); [|rewrite IH; reflexivity].
  destruct t as [|c' t']; [reflexivity|]. destruct (c' =? 37); [rewrite IH; reflexivity|]. destruct (parse (c' :: t')) as [[d rest]|]; [|reflexivity].
  rewrite convert_trim. unfold trimmed. destruct (convert d l) as [[s r]| | |]; cbn [bind]; try reflexivity. rewrite IH. reflexivity.
Qed.
Lemma format_trim fmt l : format_ fmt (map trim l) = format_ fmt l.
Proof. unfold format_, denotes. rewrite print_trim. reflexivity. Qed.

Lemma made_pass p v a : made p v a -> exists a', pass p v = Given a' /\ trim a' = trim a.
Proof.
  assert (W : forall z k, - 2 ^ 31 <= z + k * 2 ^ 32 < 2 ^ 31 -> s32 z = z + k * 2 ^ 32).
  { intros z k H. unfold s32. replace (z + 2 ^ 31) with (z + k * 2 ^ 32 + 2 ^ 31 + (- k) * 2 ^ 32) by lia. rewrite Z.mod_add by lia. rewrite Z.mod_small by lia. lia. }
  intros M. destruct M; cbn [pass]; eexists; (split; [reflexivity|]); cbn [trim]; rewrite ?c_str_twice; try reflexivity; rewrite (W _ _ H); reflexivity.
Qed.
Lemma made_all_pass ps vs l : made_all ps vs l -> exists l', pass_all ps vs = Some (Ok l') /\ map trim l' = map trim l.
Proof.
  intros M. induction M as [|p ps v vs a l M _ (l' & E & T)]; [exists []; split; reflexivity|].
  destruct (made_pass _ _ _ M) as (a' & F & S). exists (a' :: l'). cbn [pass_all map]. rewrite F, E. split; [reflexivity|]. rewrite S, T. reflexivity.
Qed.
(** A function with parameters makes its strings and ints and prints these. *)
Theorem C111_made fmt vs ps l : chosen ps vs -> made_all ps vs l -> call fmt vs = Runs (format_ fmt l).
Proof.
  intros C M. apply C111_choice in C. unfold call. rewrite C. destruct (made_all_pass _ _ _ M) as (l' & E & T). rewrite E. cbn [bind].
  rewrite <- (format_trim fmt l'), T, format_trim. reflexivity.
Qed.
Print Assumptions C111_made.
(** Otherwise the arguments go through the dots as they are. *)
Theorem C111_dots fmt vs : (forall ps, ~ fits ps vs) -> no_strings vs -> call fmt vs = Runs (format_ fmt (map plain vs)).
Proof.
  intros N K. apply dots_iff in N. unfold call. rewrite N. pose proof (proj2 (strings_b vs) K) as E. rewrite E. f_equal. f_equal. apply map_ext_in.
  intros v I. destruct v; try reflexivity. destruct (K _ I).
Qed.
Print Assumptions C111_dots.
(** With texts and ints printf sees the arguments. *)
Lemma clear_made p v : clear v -> accepts p v -> made p v (plain v).
Proof.
  destruct p, v as [s|[s|]|z| |z|z|z|z|t|]; cbn [clear accepts plain]; intros C A; try contradiction; try constructor.
  replace z with (z + 0 * 2 ^ 32) at 2 by lia. constructor. lia.
Qed.
Lemma clear_all ps vs : Forall2 accepts ps vs -> Forall clear vs -> made_all ps vs (map plain vs).
Proof. intros F. induction F as [|p v ps vs A F IH]; intros C; [constructor|]. inversion C; subst. cbn [map]. constructor; [apply clear_made; assumption|auto]. Qed.
Theorem C111_same fmt vs : Forall clear vs -> call fmt vs <> Reject -> call fmt vs = Runs (format_ fmt (map plain vs)).
Proof.
  intros C H. destruct (resolve (map type_of vs)) as [[|ps]|] eqn:R.
  - apply C111_dots; [apply dots_iff, R|]. apply strings_b. destruct (existsb is_string (map type_of vs)) eqn:E; [|reflexivity]. destruct H. unfold call. rewrite R, E. reflexivity.
  - apply C111_choice in R. apply C111_made with ps; [exact R|]. apply clear_all; [|exact C]. destruct R as [[_ F] _]. exact F.
  - destruct H. unfold call. rewrite R. reflexivity.
Qed.
Print Assumptions C111_same.
(** So the text is that of the parts of the format. *)
Theorem C111_text l vs : Forall clear vs -> map plain vs = args_of l -> proper l -> call (format_of l) vs <> Reject ->
  no_nul (text_of l) -> (length (text_of l) <> 199)%nat -> Z.of_nat (length (text_of l)) <= 5000 -> call (format_of l) vs = Runs (Ok (text_of l)).
Proof.
  intros C E P H N L1 L2. rewrite (C111_same _ _ C H), E. pose proof (C91_render l [] [] P (or_introl eq_refl)) as D. rewrite !app_nil_r in D.
  unfold format_. rewrite D. cbn [bind]. rewrite C42_format_whole; auto.
Qed.
Print Assumptions C111_text.

Lemma pass_all_cases ps vs : Forall2 accepts ps vs ->
  (beyond_at ps vs /\ pass_all ps vs = Some UB) \/ (~ beyond_at ps vs /\ null_at ps vs /\ pass_all ps vs = None) \/
  (~ beyond_at ps vs /\ ~ null_at ps vs /\ exists l, pass_all ps vs = Some (Ok l)).
Proof.
  intros F. induction F as [|p v ps vs A F IH].
  - right. right. split; [intros ([|i] & H & _); discriminate|]. split; [intros ([|i] & H & _); discriminate|]. exists []. reflexivity.
  - assert (B : forall i, nth_error (p :: ps) (S i) = nth_error ps i /\ nth_error (v :: vs) (S i) = nth_error vs i) by (intros; split; reflexivity).
    assert (HD : forall (P : Prop), (exists i, nth_error (p :: ps) i = Some PInt /\ nth_error (v :: vs) i = Some (VDouble None)) <-> (p = PInt /\ v = VDouble None) \/ beyond_at ps vs).
    { intros _. split.
      - intros ([|i] & X & Y); [left; split; [injection X as ->; reflexivity|injection Y as ->; reflexivity]|right; exists i; split; assumption].
      - intros [[-> ->]|(i & X & Y)]; [exists 0%nat; split; reflexivity|exists (S i); split; assumption]. }
    assert (HN : null_at (p :: ps) (v :: vs) <-> (p = PString /\ (v = VZero \/ v = VChars None)) \/ null_at ps vs).
    { split.
      - intros ([|i] & X & Y); [left; split; [injection X as ->; reflexivity|destruct Y as [Y|Y]; injection Y as ->; auto]|right; exists i; split; assumption].
      - intros [[-> Y]|(i & X & Y)]; [exists 0%nat; split; [reflexivity|destruct Y as [->| ->]; auto]|exists (S i); split; assumption]. }
    specialize (HD True). fold (beyond_at (p :: ps) (v :: vs)) in HD. cbn [pass_all].
    assert (P : (pass p v = Undefined /\ p = PInt /\ v = VDouble None) \/ (pass p v = Throwing /\ p = PString /\ (v = VZero \/ v = VChars None)) \/
                (exists a, pass p v = Given a /\ ~ (p = PInt /\ v = VDouble None) /\ ~ (p = PString /\ (v = VZero \/ v = VChars None)))).
    { destruct p, v as [s|[s|]|z| |z|z|z|z|[t|]|]; cbn [accepts] in A; try contradiction; cbn [pass];
        try (left; split; [reflexivity|split; reflexivity]); try (right; left; split; [reflexivity|split; [reflexivity|auto]]);
        right; right; eexists; (split; [reflexivity|]); (split; [intros [X Y]; discriminate|intros [X [Y|Y]]; discriminate]). }
    destruct P as [(E & K)|[(E & K1 & K2)|(a & E & K1 & K2)]]; rewrite E.
    + left. split; [apply HD; left; exact K|reflexivity].
    + destruct IH as [(X & Y)|[(X & Y & Z)|(X & Y & l & Z)]]; rewrite ?Y, ?Z.
      * left. split; [apply HD; right; exact X|reflexivity].
      * right. left. split; [rewrite HD; intros [[? _]|?]; [congruence|contradiction]|]. split; [apply HN; left; auto|reflexivity].
      * right. left. split; [rewrite HD; intros [[? _]|?]; [congruence|contradiction]|]. split; [apply HN; left; auto|reflexivity].
    + destruct IH as [(X & Y)|[(X & Y & Z)|(X & Y & l & Z)]]; rewrite ?Y, ?Z.
      * left. split; [apply HD; right; exact X|reflexivity].
      * right. left. split; [rewrite HD; intros [?|?]; contradiction|]. split; [apply HN; right; exact Y|reflexivity].
      * right. right. split; [rewrite HD; intros [?|?]; contradiction|]. split; [rewrite HN; intros [?|?]; contradiction|]. eexists. reflexivity.
Qed.
(** It throws exactly if a std::string is to be made of a null pointer or the literal 0. *)
Theorem C111_throws fmt vs : call fmt vs = Throws <-> exists ps, chosen ps vs /\ null_at ps vs /\ ~ beyond_at ps vs.
Proof.
  unfold call. destruct (resolve (map type_of vs)) as [[|ps]|] eqn:R.
  - split; [destruct (existsb is_string (map type_of vs)); discriminate|]. intros (ps & [F _] & _). destruct (proj1 (dots_iff vs) R ps F).
  - pose proof (proj1 (C111_choice vs ps) R) as C. assert (F : Forall2 accepts ps vs) by (destruct C as [[_ F] _]; exact F).
    destruct (pass_all_cases ps vs F) as [(X & Y)|[(X & Y & Z)|(X & Y & l & Z)]]; rewrite ?Y, ?Z.
    + split; [discriminate|]. intros (qs & D & _ & K). apply C111_choice in D. rewrite R in D. injection D as ->. contradiction.
    + split; [intros _; exists ps; auto|reflexivity].
    + split; [discriminate|]. intros (qs & D & K & _). apply C111_choice in D. rewrite R in D. injection D as ->. contradiction.
  - split; [discriminate|]. intros (ps & C & _). apply C111_choice in C. rewrite R in C. discriminate.
Qed.
Print Assumptions C111_throws.

(** The calls in the library: the place of a lock (Threads.cpp:142), the name of a counter (MemoryLeak.h:101), a key not found (Configuration.cpp:1006). *)
Theorem C111_callers file type line n key : 0 <= line < 2 ^ 31 ->
  call (lit " %s:%u") [VChars (Some file); VUnsigned line] = Runs (format_ (lit " %s:%u") [AStr (Some file); AInt line]) /\
  call (lit "%s_%s:%d") [VChars (Some type); VChars (Some file); VInt n] = Runs (format_ (lit "%s_%s:%d") [AStr (Some type); AStr (Some file); AInt n]) /\
  call (lit "key not found:%s") [VChars (Some key)] = Runs (format_ (lit "key not found:%s") [AStr (Some key)]).
Proof.
  intros R. split; [|split]; (rewrite C111_same; [reflexivity|repeat constructor; lia|]); intros H; apply C111_refused in H; destruct H as [H|[H K]]; try discriminate.
  - apply H. intros s [X|[X|[]]]; discriminate.
  - apply H. intros s [X|[X|[X|[]]]]; discriminate.
  - apply H. intros s [X|[]]; discriminate.
Qed.
Print Assumptions C111_callers.
(** Defects: the literal 0 as a single number, or with one other number, throws. *)
Theorem C111_zero_refuted :
  call (lit "%d") [VZero] = Throws /\ call (lit "%d") [VInt 0] = Runs (Ok (lit "0")) /\
  (forall z, call (lit "%d,%d") [VZero; VInt z] = Throws /\ call (lit "%d,%d") [VInt z; VZero] = Throws) /\
  call (lit "%d,%d") [VZero; VZero] = Reject /\ call (lit "%d,%d,%d") [VZero; VZero; VInt 1] = Throws /\
  call (lit "%s:%d") [VChars (Some (lit "x")); VZero] = Runs (Ok (lit "x:0")) /\ call (lit "%d:%s") [VZero; VChars (Some (lit "x"))] = Runs (Ok (lit "0:x")).
Proof. vm_compute; repeat split. Qed.
Print Assumptions C111_zero_refuted.
(** A number beside a text is cut to an int, and a long or double undefined with its own directive. *)
Theorem C111_cut_refuted s :
  call (lit "%d:%s") [VLong (2 ^ 32 + 1); VString (lit "x")] = Runs (Ok (lit "1:x")) /\ call (lit "%ld") [VLong (2 ^ 32 + 1)] = Runs (Ok (lit "4294967297")) /\
  (forall z, call (lit "%ld:%s") [VLong z; VString s] = Runs UB) /\ (forall z, call (lit "%s:%lu") [VString s; VULong z] <> Reject) /\
  call (lit "%d:%s") [VDouble (Some 2); VString (lit "x")] = Runs (Ok (lit "2:x")).
Proof.
  split; [vm_compute; reflexivity|]. split; [vm_compute; reflexivity|]. split; [intros z; reflexivity|]. split; [intros z; discriminate|vm_compute; reflexivity].
Qed.
Print Assumptions C111_cut_refuted.
(** A std::string is refused beside other arguments than those of the eight lists. *)
Theorem C111_string_refuted s a b :
  call (lit "%d %d %s") [VInt a; VInt b; VString s] = Reject /\ call (lit "%s %s %s %d") [VString s; VString s; VString s; VInt a] = Reject /\
  call (lit "%s%s%s%s%s") [VString s; VString s; VString s; VString s; VString s] = Reject /\ call (lit "%s%s") [VString s; VChars None] = Throws.
Proof. repeat split. Qed.
Print Assumptions C111_string_refuted.

(** The hypotheses are met. *)
Example C111_example : forall s, s = [97; 0; 98] ->
  call (lit "%-4s|%05d") [VString s; VInt (-42)] = Runs (Ok (lit "a   |-0042")) /\ call (lit "%s %s %d %x") [VString s; VChars (Some (lit "b")); VSmall 7; VUnsigned 255] = Runs (Ok (lit "a b 7 ff")) /\
  Forall clear [VString s; VInt (-42)] /\ call (lit "%-4s|%05d") [VString s; VInt (-42)] <> Reject.
Proof. intros s ->. split; [vm_compute; reflexivity|]. split; [vm_compute; reflexivity|]. split; [repeat constructor|discriminate]. Qed.
Example C111_example_chosen : chosen [PString; PInt] [VString (lit "x"); VZero] /\ chosen [PInt; PString] [VDouble (Some 2); VString (lit "x")] /\ null_at [PString] [VZero] /\ beyond_at [PString; PInt] [VString []; VDouble None].
Proof. split; [apply C111_choice; reflexivity|]. split; [apply C111_choice; reflexivity|]. split; [exists 0%nat; auto|exists 1%nat; auto]. Qed.
