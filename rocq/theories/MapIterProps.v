(** C114: iterating an InterthreadMap under its lock. *)
From Coq Require Import Sorted.
From Verif Require Import Base MapIterModel.
Local Open Scope Z_scope.

(** ** What is claimed *)
(** The content of the map as a function of the key. *)
Definition amap := Z -> option Z.
Definition apply (m : amap) (o : op) : amap :=
  match o with
  | Write k v => fun j => if j =? k then Some v else m j
  | Take k | Remove k => fun j => if j =? k then None else m j
  | Look _ => m
  end.
(** What a user who looks at every key sees. *)
Definition shows (w : world) (t : nat) (m : amap) : Prop := forall k, step w (Call t (Look k)) = Ok (Data (m k), w).
(** [k] is beyond the last key visited. *)
Definition beyond (last : option Z) (k : Z) : Prop := match last with None => True | Some j => j < k end.
(** The turns of a loop with the given bodies over a map: the entries visited, the map at the end, the last key. *)
Inductive walk : amap -> option Z -> list (list op) -> list (Z * Z) -> amap -> option Z -> Prop :=
| walk_end m last : walk m last [] [] m last
| walk_turn m last k v body bodies seen m' last' :
    m k = Some v -> beyond last k -> (forall j, beyond last j -> m j <> None -> k <= j) ->
    walk (fold_left apply body m) (Some k) bodies seen m' last' ->
    walk m last (body :: bodies) ((k, v) :: seen) m' last'.
(** for (it = begin(); it != end(); ++it) { *it; body } *)
Definition turn (t : nat) (body : list op) : list event := AtEnd t :: Deref t :: map (Call t) body ++ [Next t].
Definition loop (t : nat) (bodies : list (list op)) : list event := Begin t :: flat_map (turn t) bodies ++ [AtEnd t].
Definition of_thread (t : nat) (l : list event) : list event := filter (fun e => (thread e =? t)%nat) l.
Definition mine (t : nat) (tr : list (event * out)) : list (event * out) := filter (fun x => (thread (fst x) =? t)%nat) tr.
(** What the thread got from *it and from it == end(). *)
Definition visited (t : nat) (tr : list (event * out)) : list (Z * Z) :=
  flat_map (fun x => match x with (Deref _, Entry k v) => [(k, v)] | _ => [] end) (mine t tr).
Definition ends (t : nat) (tr : list (event * out)) : list bool :=
  flat_map (fun x => match x with (AtEnd _, Is b) => [b] | _ => [] end) (mine t tr).
Definition erases (k : Z) (o : op) : Prop := o = Take k \/ o = Remove k.

(** ** The container *)
Definition key (e : Z * nat * Z) : Z := fst (fst e).
Definition node (e : Z * nat * Z) : nat := snd (fst e).
Definition sorted (l : entries) : Prop := StronglySorted (fun a b => key a < key b) l.
Definition inv (w : world) : Prop := sorted (items w) /\ NoDup (map node (items w)) /\ (forall e, In e (items w) -> (node e < fresh w)%nat).
Lemma lookup_small l k : (forall e, In e l -> k < key e) -> lookup l k = None.
Proof.
  induction l as [|[[j i] x] l IH]; intros H; [reflexivity|]. cbn [lookup]. pose proof (H _ (or_introl eq_refl)) as A. cbn [key fst] in A.
  replace (j =? k) with false by lia. apply IH. intros e I. apply H. right. exact I.
Qed.
Lemma sorted_cons e l : sorted (e :: l) -> sorted l /\ (forall x, In x l -> key e < key x).
Proof. intros H. apply StronglySorted_inv in H. destruct H as [H F]. split; [exact H|]. rewrite Forall_forall in F. exact F. Qed.
Lemma cons_sorted e l : sorted l -> (forall x, In x l -> key e < key x) -> sorted (e :: l).
Proof. intros H F. constructor; [exact H|]. apply Forall_forall. exact F. Qed.
Lemma lookup_insert l k n v j : sorted l -> lookup (insert l k n v) j = if j =? k then Some v else lookup l j.
Proof.
  induction l as [|[[a i] x] l IH]; intros H; cbn [insert lookup].
  - rewrite (Z.eqb_sym k j). reflexivity.
  - apply sorted_cons in H. destruct H as [H F]. destruct (Z.ltb_spec k a) as [A|A].
    + cbn [lookup]. rewrite (Z.eqb_sym k j). reflexivity.
    + destruct (Z.eqb_spec k a) as [->|B]; cbn [lookup].
      * rewrite (Z.eqb_sym a j). destruct (j =? a); reflexivity.
      * rewrite (IH H). destruct (Z.eqb_spec a j) as [<-|C]; [|reflexivity]. replace (a =? k) with false by lia. reflexivity.
Qed.
Lemma lookup_erase l k j : sorted l -> lookup (erase l k) j = if j =? k then None else lookup l j.
Proof.
  induction l as [|[[a i] x] l IH]; intros H; cbn [erase lookup]; [destruct (j =? k); reflexivity|].
  apply sorted_cons in H. destruct H as [H F]. destruct (Z.eqb_spec a k) as [E|A].
  - destruct (j =? k) eqn:B; [apply lookup_small; intros e Y; specialize (F e Y); cbn [key fst] in F; unfold key in *; lia|]. replace (a =? j) with false by lia. reflexivity.
  - cbn [lookup]. rewrite (IH H). destruct (Z.eqb_spec a j) as [<-|C]; [|reflexivity]. replace (a =? k) with false by lia. reflexivity.
Qed.
Lemma in_insert l k n v e : In e (insert l k n v) -> (key e = k \/ exists x, In x l /\ key x = key e) /\ (node e = n \/ exists x, In x l /\ node x = node e).
Proof.
  induction l as [|[[a i] x] l IH]; cbn [insert].
  - intros [<-|[]]. cbn. auto.
  - destruct (k <? a); [|destruct (Z.eqb_spec k a) as [->|B]].
    + intros [<-|I]; [cbn; auto|]. split; right; exists e; auto.
    + intros [<-|I]; [|split; right; exists e; cbn [In]; auto]. split; [left; reflexivity|]. right. exists (a, i, x). cbn [In]. auto.
    + intros [<-|I]; [split; right; exists (a, i, x); cbn [In]; auto|]. destruct (IH I) as [A C]. split.
      * destruct A as [A|(y & Y & E)]; [left; exact A|right; exists y; cbn [In]; auto].
      * destruct C as [C|(y & Y & E)]; [left; exact C|right; exists y; cbn [In]; auto].
Qed.
Lemma sorted_insert l k n v : sorted l -> sorted (insert l k n v).
Proof.
  induction l as [|[[a i] x] l IH]; intros H; cbn [insert]; [apply cons_sorted; [exact H|intros y []]|].
  destruct (Z.ltb_spec k a) as [A|A].
  - apply cons_sorted; [exact H|]. apply sorted_cons in H. destruct H as [_ F]. intros y [<-|I]; [cbn; exact A|]. specialize (F _ I). cbn [key fst] in *. lia.
  - apply sorted_cons in H. destruct H as [H F]. destruct (Z.eqb_spec k a) as [->|B]; [apply cons_sorted; assumption|].
    apply cons_sorted; [exact (IH H)|]. intros y I. apply in_insert in I. destruct I as [[I|(z & Z1 & Z2)] _]; [cbn [key fst] in *; lia|]. rewrite <- Z2. exact (F _ Z1).
Qed.
Lemma nodes_insert l k n v : NoDup (map node l) -> (forall e, In e l -> (node e < n)%nat) -> NoDup (map node (insert l k n v)).
Proof.
  induction l as [|[[a i] x] l IH]; intros H F; cbn [insert]; [constructor; [intros []|constructor]|].
  destruct (k <? a).
  - cbn [map]. constructor; [|exact H]. intros I. change (In (node (k, n, v)) (map node ((a, i, x) :: l))) in I. apply in_map_iff in I. destruct I as (e & E & I). specialize (F _ I). cbn [node fst snd] in *. lia.
  - cbn [map] in H. apply NoDup_cons_iff in H. destruct H as [H1 H2]. destruct (k =? a); [cbn [map]; constructor; assumption|].
    cbn [map]. constructor.
    + intros I. apply in_map_iff in I. destruct I as (e & E & I). apply in_insert in I. destruct I as [_ [I|(z & Z1 & Z2)]].
      * specialize (F _ (or_introl eq_refl)). cbn [node fst snd] in *. lia.
      * apply H1. rewrite <- E, <- Z2. apply in_map. exact Z1.
    + apply IH; [exact H2|]. intros e I. apply F. right. exact I.
Qed.
Lemma in_erase l k e : In e (erase l k) -> In e l.
Proof.
  induction l as [|[[a i] x] l IH]; cbn [erase]; [auto|]. destruct (a =? k); [intros I; right; exact I|]. intros [<-|I]; [left; reflexivity|right; exact (IH I)].
Qed.
Lemma sorted_erase l k : sorted l -> sorted (erase l k).
Proof.
  induction l as [|[[a i] x] l IH]; intros H; cbn [erase]; [exact H|]. apply sorted_cons in H. destruct H as [H F]. destruct (a =? k); [exact H|].
  apply cons_sorted; [exact (IH H)|]. intros y I. apply F. exact (in_erase _ _ _ I).
Qed.
Lemma nodes_erase l k : NoDup (map node l) -> NoDup (map node (erase l k)).
Proof.
  induction l as [|[[a i] x] l IH]; intros H; cbn [erase]; [exact H|]. cbn [map] in H. apply NoDup_cons_iff in H. destruct H as [H1 H2]. destruct (a =? k); [exact H2|].
  cbn [map]. constructor; [|exact (IH H2)]. intros I. apply H1. apply in_map_iff in I. destruct I as (e & E & I). rewrite <- E. apply in_map. exact (in_erase _ _ _ I).
Qed.
Lemma at_node_insert l k f v n : n <> f ->
  match at_node l n with Some (j, _) => exists x, at_node (insert l k f v) n = Some (j, x) | None => at_node (insert l k f v) n = None end.
Proof.
  intros D. induction l as [|[[a i] x] l IH]; cbn [insert at_node]; [replace (f =? n)%nat with false by lia; reflexivity|].
  destruct (k <? a).
  - cbn [at_node]. replace (f =? n)%nat with false by lia. destruct (i =? n)%nat; [exists x; reflexivity|]. destruct (at_node l n) as [[b y]|]; [exists y|]; reflexivity.
  - destruct (k =? a); cbn [at_node]; (destruct (i =? n)%nat; [eexists; reflexivity|]); [|exact IH]. destruct (at_node l n) as [[b y]|]; [exists y|]; reflexivity.
Qed.
Lemma at_node_in l n j x : at_node l n = Some (j, x) -> In (j, n, x) l.
Proof.
  induction l as [|[[a i] y] l IH]; cbn [at_node]; [discriminate|]. destruct (Nat.eqb_spec i n) as [->|]; [|intros H; right; exact (IH H)]. intros H. injection H as -> ->. left. reflexivity.
Qed.
Lemma in_at_node l n j x : NoDup (map node l) -> In (j, n, x) l -> at_node l n = Some (j, x).
Proof.
  induction l as [|[[a i] y] l IH]; intros N; [intros []|]. cbn [map] in N. apply NoDup_cons_iff in N. destruct N as [N1 N2]. cbn [at_node]. intros [H|H].
  - injection H as -> -> ->. rewrite Nat.eqb_refl. reflexivity.
  - destruct (Nat.eqb_spec i n) as [->|]; [|exact (IH N2 H)]. contradiction N1. apply (in_map node) in H. exact H.
Qed.
Lemma not_at_node l n : at_node l n = None <-> ~ In n (map node l).
Proof.
  induction l as [|[[a i] y] l IH]; cbn [at_node map In]; [split; [intros _ []|reflexivity]|]. unfold node at 1. cbn [fst snd]. destruct (Nat.eqb_spec i n) as [->|D].
  - split; [discriminate|]. intros H. contradiction H. left. reflexivity.
  - rewrite IH. split; [intros H [E|I]; [contradiction|exact (H I)]|intros H I; apply H; right; exact I].
Qed.
Lemma at_node_erase l k n : sorted l -> NoDup (map node l) ->
  at_node (erase l k) n = match at_node l n with Some (j, x) => if j =? k then None else Some (j, x) | None => None end.
Proof.
  induction l as [|[[a i] x] l IH]; intros H N; cbn [erase at_node]; [reflexivity|]. apply sorted_cons in H. destruct H as [H F]. cbn [map] in N. apply NoDup_cons_iff in N. destruct N as [N1 N2]. cbn [node fst snd] in N1.
  destruct (Z.eqb_spec a k) as [->|A].
  - destruct (Nat.eqb_spec i n) as [->|D]; [rewrite Z.eqb_refl; apply not_at_node; exact N1|]. destruct (at_node l n) as [[j y]|] eqn:E; [|reflexivity].
    apply at_node_in in E. specialize (F _ E). cbn [key fst] in F. replace (j =? k) with false by lia. reflexivity.
  - cbn [at_node]. destruct (Nat.eqb_spec i n) as [->|D]; [replace (a =? k) with false by lia; reflexivity|]. exact (IH H N2).
Qed.
(** The entries beyond a key. *)
Definition rest (last : option Z) (l : entries) : entries := filter (fun e => match last with None => true | Some j => j <? key e end) l.
Lemma rest_none l : rest None l = l.
Proof. induction l as [|e l IH]; [reflexivity|]. cbn [rest filter]. f_equal. exact IH. Qed.
Lemma rest_all l k : (forall e, In e l -> k < key e) -> rest (Some k) l = l.
Proof.
  induction l as [|e l IH]; intros H; [reflexivity|]. cbn [rest filter]. replace (k <? key e) with true by (specialize (H e (or_introl eq_refl)); lia). f_equal. apply IH. intros x I. apply H. right. exact I.
Qed.
Lemma after_rest l n k v : sorted l -> NoDup (map node l) -> at_node l n = Some (k, v) -> after l n = Some (first (rest (Some k) l)).
Proof.
  induction l as [|[[a i] x] l IH]; intros H N; cbn [at_node after]; [discriminate|]. apply sorted_cons in H. destruct H as [H F]. cbn [map] in N. apply NoDup_cons_iff in N. destruct N as [N1 N2].
  destruct (i =? n)%nat.
  - intros E. injection E as -> ->. cbn [rest filter key fst]. rewrite Z.ltb_irrefl. f_equal. f_equal. symmetry. apply rest_all. exact F.
  - intros E. rewrite (IH H N2 E). apply at_node_in in E. specialize (F _ E). cbn [rest filter key fst] in *. replace (k <? a) with false by lia. reflexivity.
Qed.
Lemma after_none l n : at_node l n = None -> after l n = None.
Proof. induction l as [|[[a i] x] l IH]; cbn [at_node after]; [reflexivity|]. destruct (i =? n)%nat; [discriminate|exact IH]. Qed.
Lemma in_lookup l k n v : sorted l -> In (k, n, v) l -> lookup l k = Some v.
Proof.
  induction l as [|[[a i] x] l IH]; intros H; [intros []|]. apply sorted_cons in H. destruct H as [H F]. cbn [lookup]. intros [E|I].
  - injection E as -> -> ->. rewrite Z.eqb_refl. reflexivity.
  - specialize (F _ I) as G. cbn [key fst] in G. replace (a =? k) with false by lia. exact (IH H I).
Qed.
Lemma lookup_in l k v : lookup l k = Some v -> exists n, In (k, n, v) l.
Proof.
  induction l as [|[[a i] x] l IH]; cbn [lookup]; [discriminate|]. destruct (Z.eqb_spec a k) as [->|D].
  - intros E. injection E as ->. exists i. left. reflexivity.
  - intros E. destruct (IH E) as (n & I). exists n. right. exact I.
Qed.
Lemma beyond_in last l e : In e (rest last l) <-> In e l /\ beyond last (key e).
Proof. unfold rest. rewrite filter_In. destruct last as [j|]; cbn [beyond]; [rewrite Z.ltb_lt|]; tauto. Qed.
Lemma sorted_rest last l : sorted l -> sorted (rest last l).
Proof.
  induction l as [|e l IH]; intros H; [exact H|]. apply sorted_cons in H. destruct H as [H F]. unfold rest. cbn [filter]. fold (rest last l).
  destruct (match last with None => true | Some j => j <? key e end); [|exact (IH H)]. apply cons_sorted; [exact (IH H)|]. intros x I. apply beyond_in in I. apply F. apply I.
Qed.
Lemma first_rest last l n : sorted l -> first (rest last l) = Some n ->
  exists k v, In (k, n, v) l /\ beyond last k /\ (forall j, beyond last j -> lookup l j <> None -> k <= j).
Proof.
  intros H E. pose proof (sorted_rest last l H) as R. destruct (rest last l) as [|[[k i] v] r] eqn:Q; cbn [first] in E; [discriminate|]. injection E as ->. exists k, v.
  assert (In (k, n, v) (rest last l)) as I by (rewrite Q; left; reflexivity). apply beyond_in in I. split; [apply I|split; [apply I|]].
  intros j B L. destruct (lookup l j) as [x|] eqn:J; [|contradiction L; reflexivity]. apply lookup_in in J. destruct J as (i & J).
  assert (In (j, i, x) (rest last l)) as K by (apply beyond_in; split; assumption). rewrite Q in K. destruct K as [K|K]; [injection K; lia|]. apply sorted_cons in R. destruct R as [_ R]. specialize (R _ K). cbn [key fst] in R. lia.
Qed.
Lemma first_none last l : first (rest last l) = None -> forall k, beyond last k -> lookup l k = None.
Proof.
  intros E k B. destruct (lookup l k) as [v|] eqn:L; [|reflexivity]. apply lookup_in in L. destruct L as (n & L).
  assert (In (k, n, v) (rest last l)) as I by (apply beyond_in; split; assumption). destruct (rest last l) as [|[[a b] c] r]; [destruct I|discriminate].
Qed.

(** ** Reachable states *)
Lemma Ok_inj {A} (a b : A) : Ok a = Ok b -> a = b.
Proof. intros H. injection H. auto. Qed.
Lemma inv_erase w k : inv w -> inv (with_items w (erase (items w) k)).
Proof. intros (S1 & N & F). split; [apply sorted_erase; exact S1|split; [apply nodes_erase; exact N|]]. intros e I. apply F. exact (in_erase _ _ _ I). Qed.
Lemma inv_call w o : inv w -> inv (snd (call w o)).
Proof.
  intros I. destruct o as [k v|k|k|k]; cbn [call snd]; try (apply inv_erase; exact I); [|exact I]. destruct I as (S1 & N & F).
  split; [apply sorted_insert; exact S1|split; [apply nodes_insert; assumption|]]. cbn [items fresh]. intros e I. apply in_insert in I. destruct I as [_ [I|(x & X & E)]]; [lia|]. specialize (F _ X). lia.
Qed.
Lemma step_inv w e o w' : inv w -> step w e = Ok (o, w') -> inv w'.
Proof.
  intros I H. unfold step in H. destruct (asleep w (thread e)) as [[k rm]|]; destruct e as [u|u|u p|u x b|u|u|u|u|u]; try discriminate.
  - destruct (can w _); [|discriminate]. destruct (lookup (items w) k); apply Ok_inj in H; injection H as <- <-; [|exact I]. destruct rm; [|exact I]. exact (inv_erase w k I).
  - destruct (can w _); [|discriminate]. apply Ok_inj in H; injection H as <- <-. exact I.
  - destruct (own w) as [[h d]|]; [|discriminate]. destruct (h =? _)%nat; [|discriminate]. apply Ok_inj in H; injection H as <- <-. exact I.
  - destruct (can w _); [|discriminate]. apply Ok_inj in H. pose proof (inv_call w p I) as J. rewrite H in J. exact J.
  - destruct (can w _); [|discriminate]. destruct (lookup (items w) x); apply Ok_inj in H; injection H as <- <-; [|exact I]. destruct b; [|exact I]. exact (inv_erase w x I).
  - apply Ok_inj in H; injection H as <- <-. exact I.
  - destruct (iter w _) as [[n|]|]; try discriminate. destruct (at_node (items w) n) as [[k v]|]; [|discriminate]. apply Ok_inj in H; injection H as <- <-. exact I.
  - destruct (iter w _) as [[n|]|]; try discriminate. destruct (after (items w) n); [|discriminate]. apply Ok_inj in H; injection H as <- <-. exact I.
  - destruct (iter w _) as [[n|]|]; try discriminate; [destruct (at_node (items w) n); [|discriminate]|]; apply Ok_inj in H; injection H as <- <-; exact I.
Qed.
Lemma run_cons w e es tr w' : run w (e :: es) = Ok (tr, w') -> exists o w1 tr1, step w e = Ok (o, w1) /\ run w1 es = Ok (tr1, w') /\ tr = (e, o) :: tr1.
Proof.
  cbn [run]. intros H. destruct (step w e) as [[o w1]| | |]; try discriminate. cbn [bind snd fst] in H. destruct (run w1 es) as [[tr1 w2]| | |] eqn:E; try discriminate. cbn [bind snd fst] in H.
  apply Ok_inj in H. injection H as <- <-. exists o, w1, tr1. split; [reflexivity|split; [exact E|reflexivity]].
Qed.
Lemma cons_run w e es o w1 tr1 w' : step w e = Ok (o, w1) -> run w1 es = Ok (tr1, w') -> run w (e :: es) = Ok ((e, o) :: tr1, w').
Proof. intros A B. cbn [run]. rewrite A. cbn [bind snd fst]. rewrite B. reflexivity. Qed.
Lemma run_inv es : forall w tr w', inv w -> run w es = Ok (tr, w') -> inv w'.
Proof.
  induction es as [|e es IH]; intros w tr w' I H; [cbn in H; injection H as <- <-; exact I|]. apply run_cons in H. destruct H as (o & w1 & tr1 & A & B & _). exact (IH _ _ _ (step_inv _ _ _ _ I A) B).
Qed.
Lemma inv0 : inv world0.
Proof. split; [constructor|split; [constructor|intros e []]]. Qed.

(** ** The other threads *)
Definition sim (t : nat) (w1 w2 : world) : Prop := items w2 = items w1 /\ own w2 = own w1 /\ iter w2 t = iter w1 t /\ sleepers w2 = sleepers w1 /\ fresh w2 = fresh w1.
Lemma step_other w e o w' t d : own w = Some (t, d) -> thread e <> t -> step w e = Ok (o, w') -> sim t w w'.
Proof.
  intros O D H. assert (can w (thread e) = false) as C by (unfold can; rewrite O; lia). unfold step in H. rewrite C in H.
  destruct (asleep w (thread e)) as [[k rm]|]; destruct e as [u|u|u p|u x b|u|u|u|u|u]; cbn [thread] in *; try discriminate.
  - rewrite O in H. replace (t =? u)%nat with false in H by lia. discriminate.
  - apply Ok_inj in H; injection H as <- <-. unfold sim. cbn [with_iter items own iter sleepers fresh]. replace (t =? u)%nat with false by lia. auto.
  - destruct (iter w u) as [[n|]|]; try discriminate. destruct (at_node (items w) n) as [[k v]|]; [|discriminate]. apply Ok_inj in H; injection H as <- <-. unfold sim. auto.
  - destruct (iter w u) as [[n|]|]; try discriminate. destruct (after (items w) n); [|discriminate]. apply Ok_inj in H; injection H as <- <-. unfold sim. cbn [with_iter items own iter sleepers fresh]. replace (t =? u)%nat with false by lia. auto.
  - destruct (iter w u) as [[n|]|]; try discriminate; [destruct (at_node (items w) n); [|discriminate]|]; apply Ok_inj in H; injection H as <- <-; unfold sim; auto.
Qed.
Definition quiet (e : event) : Prop := match e with Lock _ | Unlock _ => False | _ => True end.
Lemma step_own w e o w' : quiet e -> step w e = Ok (o, w') -> own w' = own w.
Proof.
  intros Q H. unfold step in H. destruct (asleep w (thread e)) as [[k rm]|]; destruct e as [u|u|u p|u x b|u|u|u|u|u]; try discriminate; try (destruct Q).
  - destruct (can w _); [|discriminate]. destruct (lookup (items w) k); apply Ok_inj in H; injection H as <- <-; [|reflexivity]. destruct rm; reflexivity.
  - destruct (can w _); [|discriminate]. apply Ok_inj in H. destruct p; cbn [call] in H; injection H as <- <-; reflexivity.
  - destruct (can w _); [|discriminate]. destruct (lookup (items w) x); apply Ok_inj in H; injection H as <- <-; [|reflexivity]. destruct b; reflexivity.
  - apply Ok_inj in H; injection H as <- <-. reflexivity.
  - destruct (iter w _) as [[n|]|]; try discriminate. destruct (at_node (items w) n) as [[k v]|]; [|discriminate]. apply Ok_inj in H; injection H as <- <-. reflexivity.
  - destruct (iter w _) as [[n|]|]; try discriminate. destruct (after (items w) n); [|discriminate]. apply Ok_inj in H; injection H as <- <-. reflexivity.
  - destruct (iter w _) as [[n|]|]; try discriminate; [destruct (at_node (items w) n); [|discriminate]|]; apply Ok_inj in H; injection H as <- <-; reflexivity.
Qed.
Lemma sim_step t w1 w2 e o w1' : sim t w1 w2 -> thread e = t -> step w1 e = Ok (o, w1') -> exists w2', step w2 e = Ok (o, w2') /\ sim t w1' w2'.
Proof.
  destruct w1 as [l1 o1 i1 s1 f1], w2 as [l2 o2 i2 s2 f2]. unfold sim. cbn [items own iter sleepers fresh]. intros (-> & -> & It & -> & ->) T H.
  unfold step in *. change (asleep (W l1 o1 i2 s1 f1) (thread e)) with (asleep (W l1 o1 i1 s1 f1) (thread e)). rewrite T in *.
  change (can (W l1 o1 i2 s1 f1) t) with (can (W l1 o1 i1 s1 f1) t).
  cbn [items own iter sleepers fresh] in *. rewrite It.
  destruct (asleep (W l1 o1 i1 s1 f1) t) as [[k rm]|]; destruct e as [u|u|u p|u x b|u|u|u|u|u]; try discriminate.
  - destruct (can _ t); [|discriminate]. destruct (lookup l1 k); apply Ok_inj in H; injection H as <- <-; (eexists; split; [reflexivity|]); [destruct rm|]; cbn; (repeat split; congruence).
  - destruct (can _ t); [|discriminate]. apply Ok_inj in H; injection H as <- <-; (eexists; split; [reflexivity|]); cbn; (repeat split; congruence).
  - destruct o1 as [[h d]|]; [|discriminate]. destruct (h =? t)%nat; [|discriminate]. apply Ok_inj in H; injection H as <- <-; (eexists; split; [reflexivity|]); cbn; (repeat split; congruence).
  - destruct (can _ t); [|discriminate]. apply Ok_inj in H. destruct p; cbn [call] in *; injection H as <- <-; (eexists; split; [reflexivity|]); cbn; (repeat split; congruence).
  - destruct (can _ t); [|discriminate]. destruct (lookup l1 x); apply Ok_inj in H; injection H as <- <-; (eexists; split; [reflexivity|]); [destruct b|]; cbn; (repeat split; congruence).
  - apply Ok_inj in H; injection H as <- <-; (eexists; split; [reflexivity|]). cbn. rewrite Nat.eqb_refl. (repeat split; congruence).
  - destruct (i1 t) as [[n|]|] eqn:I1; try discriminate. destruct (at_node l1 n) as [[k v]|]; [|discriminate]. apply Ok_inj in H; injection H as <- <-; (eexists; split; [reflexivity|]). cbn. (repeat split; congruence).
  - destruct (i1 t) as [[n|]|] eqn:I1; try discriminate. destruct (after l1 n); [|discriminate]. apply Ok_inj in H; injection H as <- <-; (eexists; split; [reflexivity|]). cbn. rewrite Nat.eqb_refl. (repeat split; congruence).
  - destruct (i1 t) as [[n|]|] eqn:I1; try discriminate; [destruct (at_node l1 n); [|discriminate]|]; apply Ok_inj in H; injection H as <- <-; (eexists; split; [reflexivity|]); cbn; (repeat split; congruence).
Qed.
(** While a thread holds the mutex the others might as well not run. *)
Lemma solo es t d : forall w1 w2 tr w1', sim t w1 w2 -> own w1 = Some (t, d) -> (forall e, In e (of_thread t es) -> quiet e) -> run w1 es = Ok (tr, w1') ->
  exists w2', run w2 (of_thread t es) = Ok (mine t tr, w2') /\ sim t w1' w2'.
Proof.
  induction es as [|e es IH]; intros w1 w2 tr w1' S1 O Q H.
  - cbn in H. injection H as <- <-. exists w2. split; [reflexivity|exact S1].
  - apply run_cons in H. destruct H as (o & w & tr1 & A & B & ->). unfold of_thread, mine in *. cbn [filter fst] in *. destruct (Nat.eqb_spec (thread e) t) as [T|T].
    + destruct (sim_step _ _ _ _ _ _ S1 T A) as (w2' & A2 & S2). destruct (IH w w2' tr1 w1' S2) as (w3 & R & S3); [|intros x X; apply Q; right; exact X|exact B|].
      * rewrite (step_own _ _ _ _ (Q e (or_introl eq_refl)) A). exact O.
      * exists w3. split; [|exact S3]. exact (cons_run _ _ _ _ _ _ _ A2 R).
    + pose proof (step_other _ _ _ _ _ _ O T A) as (E1 & E2 & E3 & E4 & E5). destruct S1 as (F1 & F2 & F3 & F4 & F5).
      apply (IH w w2 tr1 w1'); [|congruence|exact Q|exact B]. repeat split; congruence.
Qed.

(** ** The loop of one thread *)
(** The thread holds the mutex and is not asleep, and the map has the content [m]. *)
Definition holds (w : world) (t d : nat) (m : amap) : Prop := inv w /\ own w = Some (t, d) /\ asleep w t = None /\ (forall k, lookup (items w) k = m k).
Lemma holds_can w t d m : holds w t d m -> can w t = true.
Proof. intros (_ & O & _). unfold can. rewrite O. apply Nat.eqb_refl. Qed.
Lemma holds_shows w t d m : holds w t d m -> shows w t m.
Proof. intros H k. unfold step. cbn [thread]. pose proof (holds_can _ _ _ _ H) as C. destruct H as (_ & _ & A & L). rewrite A, C. cbn [call]. rewrite L. reflexivity. Qed.
Lemma shows_holds w t d m : inv w -> own w = Some (t, d) -> shows w t m -> holds w t d m.
Proof.
  intros I O H. split; [exact I|split; [exact O|]]. unfold shows, step in H. cbn [thread] in H. destruct (asleep w t) as [[k b]|]; [specialize (H 0); discriminate|]. split; [reflexivity|].
  intros k. specialize (H k). destruct (can w t); [|discriminate]. cbn [call] in H. injection H. auto.
Qed.
Lemma call_holds w t d m o : holds w t d m -> exists x w', step w (Call t o) = Ok (x, w') /\ holds w' t d (apply m o) /\ iter w' t = iter w t /\
  (forall n k, (n < fresh w)%nat -> match at_node (items w) n with Some (j, _) => j = k | None => True end -> match at_node (items w') n with Some (j, _) => j = k | None => True end) /\
  (forall n k v, at_node (items w) n = Some (k, v) -> (at_node (items w') n = None <-> erases k o)) /\
  (forall n, (n < fresh w)%nat -> at_node (items w) n = None -> at_node (items w') n = None) /\ (fresh w <= fresh w')%nat.
Proof.
  intros H. pose proof (holds_can _ _ _ _ H) as C. destruct H as (I & O & A & L). unfold step. cbn [thread]. rewrite A, C. pose proof (inv_call w o I) as J. destruct (call w o) as [x w'] eqn:E. cbn [snd] in J.
  exists x, w'. split; [reflexivity|]. destruct I as (S1 & N & F).
  assert (forall n k v, at_node (items w) n = Some (k, v) -> (n < fresh w)%nat) as FR by (intros n k v X; apply at_node_in in X; exact (F _ X)).
  destruct o as [k v|k|k|k]; cbn [call] in E; injection E as <- <-; cbn [items iter fresh with_items] in *.
  - split; [|split; [reflexivity|split; [|split; [|split; [|lia]]]]].
    + split; [exact J|split; [exact O|split; [exact A|]]]. intros j. cbn [items apply]. rewrite lookup_insert by exact S1. rewrite L. reflexivity.
    + intros n j B X. pose proof (at_node_insert (items w) k (fresh w) v n) as Y. destruct (at_node (items w) n) as [[a y]|]; [destruct (Y ltac:(lia)) as (z & ->); exact X|rewrite (Y ltac:(lia)); exact Logic.I].
    + intros n j y X. pose proof (at_node_insert (items w) k (fresh w) v n) as Y. rewrite X in Y. specialize (FR _ _ _ X). destruct (Y ltac:(lia)) as (z & ->). unfold erases. split; [discriminate|intros [Q|Q]; discriminate].
    + intros n B X. pose proof (at_node_insert (items w) k (fresh w) v n) as Y. rewrite X in Y. apply Y. lia.
  - split; [|split; [reflexivity|split; [|split; [|split; [|lia]]]]].
    + split; [exact J|split; [exact O|split; [exact A|]]]. intros j. cbn [items apply with_items]. rewrite lookup_erase by exact S1. rewrite L. reflexivity.
    + intros n j B X. rewrite at_node_erase by assumption. destruct (at_node (items w) n) as [[a y]|]; [|exact Logic.I]. destruct (a =? k); [exact Logic.I|exact X].
    + intros n j y X. rewrite at_node_erase by assumption. rewrite X. unfold erases. destruct (Z.eqb_spec j k) as [->|D]; [tauto|]. split; [discriminate|]. intros [Q|Q]; [|discriminate]. injection Q. intros ->. contradiction.
    + intros n B X. rewrite at_node_erase by assumption. rewrite X. reflexivity.
  - split; [|split; [reflexivity|split; [|split; [|split; [|lia]]]]].
    + split; [exact J|split; [exact O|split; [exact A|exact L]]].
    + auto.
    + intros n j y ->. unfold erases. split; [discriminate|]. intros [Q|Q]; discriminate.
    + auto.
  - split; [|split; [reflexivity|split; [|split; [|split; [|lia]]]]].
    + split; [exact J|split; [exact O|split; [exact A|]]]. intros j. cbn [items apply with_items]. rewrite lookup_erase by exact S1. rewrite L. reflexivity.
    + intros n j B X. rewrite at_node_erase by assumption. destruct (at_node (items w) n) as [[a y]|]; [|exact Logic.I]. destruct (a =? k); [exact Logic.I|exact X].
    + intros n j y X. rewrite at_node_erase by assumption. rewrite X. unfold erases. destruct (Z.eqb_spec j k) as [->|D]; [tauto|]. split; [discriminate|]. intros [Q|Q]; [discriminate|]. injection Q. intros ->. contradiction.
    + intros n B X. rewrite at_node_erase by assumption. rewrite X. reflexivity.
Qed.
(** The body of a turn. *)
Lemma body_holds body t d : forall w m n k, holds w t d m -> (n < fresh w)%nat -> match at_node (items w) n with Some (j, _) => j = k | None => True end ->
  exists tr w', (forall es, run w (map (Call t) body ++ es) = (do q <- run w' es; Ok (tr ++ fst q, snd q))) /\ visited t tr = [] /\ ends t tr = [] /\
    holds w' t d (fold_left apply body m) /\ iter w' t = iter w t /\ match at_node (items w') n with Some (j, _) => j = k | None => True end /\
    (at_node (items w') n = None <-> at_node (items w) n = None \/ Exists (erases k) body).
Proof.
  induction body as [|o body IH]; intros w m n k H B K.
  - exists [], w. split; [|split; [reflexivity|split; [reflexivity|split; [exact H|split; [reflexivity|split; [exact K|]]]]]].
    + intros es. cbn [map app]. destruct (run w es) as [[a b]| | |]; reflexivity.
    + split; [left; assumption|]. intros [X|X]; [exact X|]. inversion X.
  - destruct (call_holds w t d m o H) as (x & w1 & E & H1 & It & K1 & R1 & R0 & F1). specialize (K1 n k B K).
    destruct (IH w1 (apply m o) n k H1 ltac:(lia) K1) as (tr & w' & R & V & En & H2 & It2 & K2 & R2). exists ((Call t o, x) :: tr), w'.
    split; [|split; [|split; [|split; [exact H2|split; [congruence|split; [exact K2|]]]]]].
    + intros es. cbn [map app run]. rewrite E. cbn [bind fst snd]. rewrite R. destruct (run w' es) as [[a b]| | |]; reflexivity.
    + unfold visited, mine in *. cbn [filter fst thread]. rewrite Nat.eqb_refl. cbn [flat_map app]. exact V.
    + unfold ends, mine in *. cbn [filter fst thread]. rewrite Nat.eqb_refl. cbn [flat_map app]. exact En.
    + rewrite R2, Exists_cons. destruct (at_node (items w) n) as [[j v]|] eqn:Q.
      * subst j. rewrite (R1 n k v Q). split; [tauto|]. intros [X|X]; [discriminate|tauto].
      * rewrite (R0 n B Q). tauto.
Qed.
Lemma visited_cons t e o tr : thread e = t -> visited t ((e, o) :: tr) = (match e, o with Deref _, Entry k v => [(k, v)] | _, _ => [] end) ++ visited t tr.
Proof. intros T. unfold visited, mine. cbn [filter fst]. rewrite T, Nat.eqb_refl. cbn [flat_map]. destruct e; reflexivity. Qed.
Lemma ends_cons t e o tr : thread e = t -> ends t ((e, o) :: tr) = (match e, o with AtEnd _, Is b => [b] | _, _ => [] end) ++ ends t tr.
Proof. intros T. unfold ends, mine. cbn [filter fst]. rewrite T, Nat.eqb_refl. cbn [flat_map]. destruct e; reflexivity. Qed.
Lemma visited_app t a b : visited t (a ++ b) = visited t a ++ visited t b.
Proof. unfold visited, mine. rewrite filter_app, flat_map_app. reflexivity. Qed.
Lemma ends_app t a b : ends t (a ++ b) = ends t a ++ ends t b.
Proof. unfold ends, mine. rewrite filter_app, flat_map_app. reflexivity. Qed.
Lemma holds_iter w t d m i : holds w t d m -> holds (with_iter w t i) t d m.
Proof. intros H. exact H. Qed.
Lemma at_end w t d m last : holds w t d m -> iter w t = Some (first (rest last (items w))) ->
  exists b, step w (AtEnd t) = Ok (Is b, w) /\ (b = true <-> first (rest last (items w)) = None) /\ (b = true <-> forall k, beyond last k -> m k = None).
Proof.
  intros ((S1 & N & F) & O & A & L) It. unfold step. cbn [thread]. rewrite A, It. destruct (first (rest last (items w))) as [n|] eqn:E.
  - destruct (first_rest _ _ _ S1 E) as (k & v & I & B & _). rewrite (in_at_node _ _ _ _ N I). exists false. split; [reflexivity|]. split; [split; discriminate|]. split; [discriminate|]. intros Q. specialize (Q k B). rewrite <- L, (in_lookup _ _ _ _ S1 I) in Q. discriminate.
  - exists true. split; [reflexivity|split; [tauto|]]. split; [|reflexivity]. intros _ k B. rewrite <- L. exact (first_none _ _ E k B).
Qed.
Lemma run_app_ub w e es : step w e = UB -> run w (e :: es) = UB.
Proof. intros E. cbn [run]. rewrite E. reflexivity. Qed.
(** One turn, from a position that is not the end. *)
Lemma turn_holds w t d m last n body : holds w t d m -> iter w t = Some (first (rest last (items w))) -> first (rest last (items w)) = Some n ->
  exists k v, m k = Some v /\ beyond last k /\ (forall j, beyond last j -> m j <> None -> k <= j) /\ step w (Deref t) = Ok (Entry k v, w) /\
    (Exists (erases k) body -> forall es, run w (map (Call t) body ++ Next t :: es) = UB) /\
    (~ Exists (erases k) body -> exists tr w', (forall es, run w (map (Call t) body ++ Next t :: es) = (do q <- run w' es; Ok (tr ++ fst q, snd q))) /\
       visited t tr = [] /\ ends t tr = [] /\ holds w' t d (fold_left apply body m) /\ iter w' t = Some (first (rest (Some k) (items w')))).
Proof.
  intros H It E. pose proof H as ((S1 & N & F) & O & A & L). destruct (first_rest _ _ _ S1 E) as (k & v & I & B & M). exists k, v. pose proof (in_at_node _ _ _ _ N I) as P.
  split; [rewrite <- L; exact (in_lookup _ _ _ _ S1 I)|split; [exact B|split; [intros j; rewrite <- L; apply M|split]]].
  - unfold step. cbn [thread]. rewrite A, It, E, P. reflexivity.
  - destruct (body_holds body t d w m n k H (F _ I)) as (tr & w' & R & V & En & H2 & It2 & K2 & R2); [rewrite P; reflexivity|].
    assert (iter w' t = Some (Some n)) as It3 by congruence. pose proof H2 as ((S2 & N2 & F2) & O2 & A2 & L2). split.
    + intros X es. rewrite R, run_app_ub; [reflexivity|]. unfold step. cbn [thread]. rewrite A2, It3, after_none; [reflexivity|]. apply R2. right. exact X.
    + intros X. destruct (at_node (items w') n) as [[j y]|] eqn:Q; [|rewrite P in R2; destruct (proj1 R2 eq_refl) as [Y|Y]; [discriminate|contradiction]]. subst j.
      exists (tr ++ [(Next t, Nothing)]), (with_iter w' t (first (rest (Some k) (items w')))).
      split; [|split; [|split; [|split; [apply holds_iter; exact H2|]]]].
      * intros es. rewrite R. cbn [run]. replace (step w' (Next t)) with (Ok (Nothing, with_iter w' t (first (rest (Some k) (items w'))))).
        -- cbn [bind fst snd]. destruct (run _ es) as [[a b]| | |]; try reflexivity. cbn [bind fst snd]. rewrite <- app_assoc. reflexivity.
        -- unfold step. cbn [thread]. rewrite A2, It3, (after_rest _ _ _ _ S2 N2 Q). reflexivity.
      * rewrite visited_app, V, visited_cons by reflexivity. reflexivity.
      * rewrite ends_app, En, ends_cons by reflexivity. reflexivity.
      * cbn [iter with_iter items]. rewrite Nat.eqb_refl. reflexivity.
Qed.
Lemma loop_holds bodies t d : forall w m last tr w', holds w t d m -> iter w t = Some (first (rest last (items w))) ->
  run w (flat_map (turn t) bodies ++ [AtEnd t]) = Ok (tr, w') ->
  exists m' last' b, walk m last bodies (visited t tr) m' last' /\ holds w' t d m' /\ ends t tr = repeat false (length bodies) ++ [b] /\ (b = true <-> forall k, beyond last' k -> m' k = None).
Proof.
  induction bodies as [|body bodies IH]; intros w m last tr w' H It R; destruct (at_end w t d m last H It) as (b & E & B1 & B2).
  - cbn [flat_map app] in R. apply run_cons in R. destruct R as (o & w1 & tr1 & A & R & ->). rewrite E in A. apply Ok_inj in A. injection A as <- <-. cbn in R. injection R as <- <-.
    exists m, last, b. rewrite visited_cons, ends_cons by reflexivity. split; [constructor|split; [exact H|split; [reflexivity|exact B2]]].
  - cbn [flat_map app turn] in R. apply run_cons in R. destruct R as (o & w1 & tr1 & A & R & ->). rewrite E in A. apply Ok_inj in A. injection A as <- <-.
    apply run_cons in R. destruct R as (o & w1 & tr2 & A & R & ->). destruct (first (rest last (items w))) as [n|] eqn:Q.
    2:{ unfold step in A. cbn [thread] in A. destruct (asleep w t) as [[? ?]|]; [discriminate|]. rewrite It in A. discriminate. }
    destruct (turn_holds w t d m last n body H ltac:(congruence) Q) as (k & v & M & By & Le & D & Bad & Good). rewrite D in A. apply Ok_inj in A. injection A as <- <-.
    rewrite <- !app_assoc in R. cbn [app] in R.
    assert (b = false) as -> by (destruct b; [destruct B1 as [B1 _]; discriminate (B1 eq_refl)|reflexivity]).
    assert (~ Exists (erases k) body) as NE by (intros X; rewrite (Bad X) in R; discriminate).
    destruct (Good NE) as (tr3 & w3 & G & V & En & H3 & It3). rewrite G in R. destruct (run w3 (flat_map (turn t) bodies ++ [AtEnd t])) as [[tr4 w4]| | |] eqn:R4; try discriminate. cbn [bind fst snd] in R. injection R as <- <-.
    destruct (IH w3 _ _ _ _ H3 It3 R4) as (m' & last' & b & Wa & H4 & E4 & B4). exists m', last', b.
    rewrite !visited_cons, !ends_cons by reflexivity. rewrite visited_app, V, ends_app, En, E4. cbn [app length repeat].
    split; [|split; [exact H4|split; [reflexivity|exact B4]]]. econstructor; eassumption.
Qed.
Lemma loop_quiet t bodies e : In e (loop t bodies) -> quiet e.
Proof.
  unfold loop. intros [<-|H]; [exact I|]. apply in_app_or in H. destruct H as [H|[<-|[]]]; [|exact I]. apply in_flat_map in H. destruct H as (body & _ & H). destruct H as [<-|[<-|H]]; try exact I.
  apply in_app_or in H. destruct H as [H|[<-|[]]]; [|exact I]. apply in_map_iff in H. destruct H as (o & <- & _). exact I.
Qed.
Lemma mine_mine t tr : mine t (mine t tr) = mine t tr.
Proof. unfold mine. induction tr as [|x tr IH]; [reflexivity|]. cbn [filter]. destruct (thread (fst x) =? t)%nat eqn:E; [|exact IH]. cbn [filter]. rewrite E. f_equal. exact IH. Qed.
Lemma begin_holds w t d m : holds w t d m -> step w (Begin t) = Ok (Nothing, with_iter w t (first (rest None (items w)))).
Proof. intros (_ & _ & A & _). unfold step. cbn [thread]. rewrite A, rest_none. reflexivity. Qed.

(** ** The theorems *)
(** A thread that holds the lock and walks over the map visits, at every turn, the least key beyond the last one in
    the map as its own calls have left it, with the data it has then; nobody else changes the map; and it is told the
    end exactly when there is no key beyond the last one. *)
Theorem C114_loop : forall es0 tr0 w t d m es bodies tr w',
  run world0 es0 = Ok (tr0, w) -> own w = Some (t, d) -> shows w t m ->
  of_thread t es = loop t bodies -> run w es = Ok (tr, w') ->
  exists m' last b, walk m None bodies (visited t tr) m' last /\ shows w' t m' /\ own w' = Some (t, d) /\
    ends t tr = repeat false (length bodies) ++ [b] /\ (b = true <-> forall k, beyond last k -> m' k = None).
Proof.
  intros es0 tr0 w t d m es bodies tr w' R0 O Sh F R. pose proof (shows_holds _ _ _ _ (run_inv _ _ _ _ inv0 R0) O Sh) as H.
  destruct (solo es t d w w tr w') as (w2 & R2 & S2); [repeat split|exact O|rewrite F; apply loop_quiet|exact R|]. rewrite F in R2. unfold loop in R2.
  apply run_cons in R2. destruct R2 as (o & w1 & tr1 & A & R2 & E). rewrite (begin_holds _ _ _ _ H) in A. apply Ok_inj in A. injection A as <- <-.
  destruct (loop_holds bodies t d (with_iter w t (first (rest None (items w)))) m None tr1 w2 (holds_iter _ _ _ _ _ H)) as (m' & last & b & Wa & H2 & En & B); [|exact R2|].
  - cbn [iter with_iter items]. rewrite Nat.eqb_refl. reflexivity.
  - exists m', last, b. assert (visited t tr = visited t tr1) as -> by (unfold visited at 1; rewrite <- mine_mine, E; exact (visited_cons t (Begin t) Nothing tr1 eq_refl)).
    assert (ends t tr = ends t tr1) as -> by (unfold ends at 1; rewrite <- mine_mine, E; exact (ends_cons t (Begin t) Nothing tr1 eq_refl)).
    split; [exact Wa|]. destruct S2 as (E1 & E2 & E3 & E4 & E5). split; [|split; [destruct H2 as (_ & O2 & _); congruence|split; [exact En|exact B]]].
    intros k. pose proof (holds_can _ _ _ _ H2) as C. destruct H2 as (_ & O2 & A2 & L2). unfold step. cbn [thread]. unfold asleep, can in *. rewrite E4 in A2. rewrite E2 in C. rewrite A2, C. cbn [call]. rewrite <- E1, L2. reflexivity.
Qed.
Print Assumptions C114_loop.

Lemma walk_sorted m last bodies seen m' last' : walk m last bodies seen m' last' -> StronglySorted Z.lt (map fst seen) /\ (forall k, In k (map fst seen) -> beyond last k).
Proof.
  induction 1 as [m last|m last k v body bodies seen m' last' M B L W [IH1 IH2]]; [split; [constructor|intros k []]|]. cbn [map fst]. split.
  - constructor; [exact IH1|]. apply Forall_forall. exact IH2.
  - intros j [<-|I]; [exact B|]. specialize (IH2 _ I). cbn [beyond] in *. destruct last; cbn [beyond] in *; [lia|exact Logic.I].
Qed.
(** No key is visited twice: they come in ascending order. *)
Theorem C114_order : forall es0 tr0 w t d m es bodies tr w',
  run world0 es0 = Ok (tr0, w) -> own w = Some (t, d) -> shows w t m -> of_thread t es = loop t bodies -> run w es = Ok (tr, w') ->
  StronglySorted Z.lt (map fst (visited t tr)).
Proof.
  intros es0 tr0 w t d m es bodies tr w' R0 O Sh F R. destruct (C114_loop _ _ _ _ _ _ _ _ _ _ R0 O Sh F R) as (m' & last & b & Wa & _). apply (walk_sorted _ _ _ _ _ _ Wa).
Qed.
Print Assumptions C114_order.

Lemma keeps m body j : m j <> None -> ~ Exists (erases j) body -> fold_left apply body m j <> None.
Proof.
  revert m. induction body as [|o body IH]; intros m M E; [exact M|]. rewrite Exists_cons in E. cbn [fold_left]. apply IH; [|tauto].
  destruct o as [k v|k|k|k]; cbn [apply]; [|destruct (Z.eqb_spec j k) as [->|]; [unfold erases in E; tauto|exact M]|exact M|destruct (Z.eqb_spec j k) as [->|]; [unfold erases in E; tauto|exact M]].
  destruct (j =? k); [discriminate|exact M].
Qed.
Lemma walk_complete m last bodies seen m' last' : walk m last bodies seen m' last' -> (forall k, beyond last' k -> m' k = None) ->
  forall j, beyond last j -> m j <> None -> ~ Exists (Exists (erases j)) bodies -> In j (map fst seen).
Proof.
  induction 1 as [m last|m last k v body bodies seen m' last' M B L W IH]; intros En j Bj Mj Ne.
  - contradiction Mj. exact (En j Bj).
  - rewrite Exists_cons in Ne. cbn [map fst In]. destruct (Z.eq_dec k j) as [|D]; [left; assumption|right]. apply IH; [exact En| |apply keeps; tauto|tauto]. cbn [beyond]. specialize (L j Bj Mj). lia.
Qed.
(** A loop that comes to the end has visited every key that was there at the start and that it did not remove. *)
Theorem C114_complete : forall es0 tr0 w t d m es bodies tr w' j,
  run world0 es0 = Ok (tr0, w) -> own w = Some (t, d) -> shows w t m -> of_thread t es = loop t bodies -> run w es = Ok (tr, w') ->
  last (ends t tr) false = true -> m j <> None -> ~ Exists (Exists (erases j)) bodies -> In j (map fst (visited t tr)).
Proof.
  intros es0 tr0 w t d m es bodies tr w' j R0 O Sh F R La Mj Ne. destruct (C114_loop _ _ _ _ _ _ _ _ _ _ R0 O Sh F R) as (m' & la & b & Wa & _ & _ & En & B).
  rewrite En, last_last in La. subst b. apply (walk_complete _ _ _ _ _ _ Wa); [apply B; reflexivity|exact I|exact Mj|exact Ne].
Qed.
Print Assumptions C114_complete.

Lemma walk_look m last bodies seen m' last' : walk m last bodies seen m' last' -> Forall (Forall (fun o => exists k, o = Look k)) bodies -> forall k v, In (k, v) seen -> m k = Some v.
Proof.
  induction 1 as [m last|m last k v body bodies seen m' last' M B L W IH]; intros Fo j x I; [destruct I|]. apply Forall_cons_iff in Fo. destruct Fo as [Fb Fo]. destruct I as [E|I]; [injection E as <- <-; exact M|].
  specialize (IH Fo _ _ I). clear - Fb IH. revert IH. induction body as [|o body IHb] in m, Fb |- *; [auto|]. apply Forall_cons_iff in Fb. destruct Fb as [(y & ->) Fb]. cbn [fold_left apply]. exact (IHb m Fb).
Qed.
(** A loop that only looks visits exactly the entries of the map. *)
Theorem C114_snapshot : forall es0 tr0 w t d m es bodies tr w',
  run world0 es0 = Ok (tr0, w) -> own w = Some (t, d) -> shows w t m -> of_thread t es = loop t bodies -> run w es = Ok (tr, w') ->
  last (ends t tr) false = true -> Forall (Forall (fun o => exists k, o = Look k)) bodies ->
  forall k v, In (k, v) (visited t tr) <-> m k = Some v.
Proof.
  intros es0 tr0 w t d m es bodies tr w' R0 O Sh F R La Fo k v. destruct (C114_loop _ _ _ _ _ _ _ _ _ _ R0 O Sh F R) as (m' & la & b & Wa & _). split; [exact (walk_look _ _ _ _ _ _ Wa Fo k v)|].
  intros M. assert (In k (map fst (visited t tr))) as I.
  - apply (C114_complete _ _ _ _ _ _ _ _ _ _ k R0 O Sh F R La); [congruence|]. intros X. apply Exists_exists in X. destruct X as (body & X & Y). apply Exists_exists in Y. destruct Y as (o & Y & Z0).
    rewrite Forall_forall in Fo. specialize (Fo _ X). rewrite Forall_forall in Fo. destruct (Fo _ Y) as (q & ->). destruct Z0; discriminate.
  - apply in_map_iff in I. destruct I as ([a y] & E & I). cbn [fst] in E. subst a. pose proof (walk_look _ _ _ _ _ _ Wa Fo _ _ I) as M2. rewrite M in M2. injection M2 as ->. exact I.
Qed.
Print Assumptions C114_snapshot.

Lemma walk_bound m last bodies seen m' last' ks : walk m last bodies seen m' last' -> (forall j, m j <> None -> In j ks) ->
  (forall j v, Exists (In (Write j v)) bodies -> In j ks) -> incl (map fst seen) ks /\ length seen = length bodies.
Proof.
  induction 1 as [m last|m last k v body bodies seen m' last' M B L W IH]; intros A Wr; [split; [intros j []|reflexivity]|].
  destruct IH as [I1 I2].
  - assert (forall j v, In (Write j v) body -> In j ks) as Wb by (intros j x X; apply (Wr j x); left; exact X). clear - A Wb. revert A. induction body as [|o body IHb] in m, Wb |- *; [auto|]. intros A. cbn [fold_left]. apply IHb; [intros j x X; apply (Wb j x); right; exact X|].
    intros j. destruct o as [q x|q|q|q]; cbn [apply]; try apply A; [|destruct (j =? q); [congruence|apply A]|destruct (j =? q); [congruence|apply A]].
    destruct (Z.eqb_spec j q) as [->|]; [intros _; apply (Wb q x); left; reflexivity|apply A].
  - intros j x X. apply (Wr j x). right. exact X.
  - cbn [map fst length]. split; [|congruence]. intros j [<-|J]; [apply A; congruence|exact (I1 _ J)].
Qed.
(** The loop takes no more turns than there are keys, those of the start and those it writes. *)
Theorem C114_bound : forall es0 tr0 w t d m es bodies tr w' ks,
  run world0 es0 = Ok (tr0, w) -> own w = Some (t, d) -> shows w t m -> of_thread t es = loop t bodies -> run w es = Ok (tr, w') ->
  (forall j, m j <> None -> In j ks) -> (forall j v, Exists (In (Write j v)) bodies -> In j ks) -> (length bodies <= length ks)%nat.
Proof.
  intros es0 tr0 w t d m es bodies tr w' ks R0 O Sh F R A Wr. destruct (C114_loop _ _ _ _ _ _ _ _ _ _ R0 O Sh F R) as (m' & la & b & Wa & _). destruct (walk_bound _ _ _ _ _ _ ks Wa A Wr) as [I L].
  destruct (walk_sorted _ _ _ _ _ _ Wa) as [So _]. rewrite <- L, <- (map_length fst). apply NoDup_incl_length; [|exact I].
  clear - So. induction (map fst (visited t tr)) as [|a l IH]; [constructor|]. apply StronglySorted_inv in So. destruct So as [So Fo]. constructor; [|exact (IH So)]. intros X. rewrite Forall_forall in Fo. specialize (Fo _ X). lia.
Qed.
Print Assumptions C114_bound.

(** When a turn is defined: exactly when its body does not remove the key the iterator is at. *)
Theorem C114_defined : forall es0 tr0 w t d k v body,
  run world0 es0 = Ok (tr0, w) -> own w = Some (t, d) -> step w (Deref t) = Ok (Entry k v, w) ->
  (Exists (erases k) body -> run w (map (Call t) body ++ [Next t]) = UB) /\
  (~ Exists (erases k) body -> exists r, run w (map (Call t) body ++ [Next t]) = Ok r).
Proof.
  intros es0 tr0 w t d k v body R0 O D. pose proof (run_inv _ _ _ _ inv0 R0) as I0. unfold step in D. cbn [thread] in D. destruct (asleep w t) as [[? ?]|] eqn:A; [discriminate|].
  destruct (iter w t) as [[n|]|] eqn:It; try discriminate. destruct (at_node (items w) n) as [[a x]|] eqn:P; [|discriminate]. apply Ok_inj in D. injection D as -> ->.
  assert (holds w t d (lookup (items w))) as H by (split; [exact I0|split; [exact O|split; [exact A|reflexivity]]]).
  assert ((n < fresh w)%nat) as B by (destruct I0 as (_ & _ & F); exact (F _ (at_node_in _ _ _ _ P))).
  destruct (body_holds body t d w _ n k H B) as (tr & w' & R & V & En & H2 & It2 & K2 & R2); [rewrite P; reflexivity|]. rewrite It in It2. destruct H2 as ((S2 & N2 & F2) & O2 & A2 & L2). rewrite R, P in *. split.
  - intros X. rewrite run_app_ub; [reflexivity|]. unfold step. cbn [thread]. rewrite A2, It2, after_none; [reflexivity|]. apply R2. right. exact X.
  - intros X. destruct (at_node (items w') n) as [[j y]|] eqn:Q; [|destruct (proj1 R2 eq_refl); [discriminate|contradiction]]. cbn [run]. unfold step. cbn [thread]. rewrite A2, It2, (after_rest _ _ _ _ S2 N2 Q). cbn [bind fst snd]. eexists. reflexivity.
Qed.
Print Assumptions C114_defined.

Lemma loop_runs bodies t d : forall w m last seen m' last', holds w t d m -> iter w t = Some (first (rest last (items w))) ->
  walk m last bodies seen m' last' -> Forall2 (fun x body => ~ Exists (erases (fst x)) body) seen bodies ->
  exists tr w' b, run w (flat_map (turn t) bodies ++ [AtEnd t]) = Ok (tr, w') /\ visited t tr = seen /\ ends t tr = repeat false (length bodies) ++ [b] /\ (b = true <-> forall k, beyond last' k -> m' k = None).
Proof.
  induction bodies as [|body bodies IH]; intros w m last seen m' last' H It Wa Fo; destruct (at_end w t d m last H It) as (b & E & B1 & B2).
  - inversion Wa; subst. exists [(AtEnd t, Is b)], w, b. cbn [flat_map app run]. rewrite E. split; [reflexivity|]. rewrite visited_cons, ends_cons by reflexivity. split; [reflexivity|split; [reflexivity|exact B2]].
  - inversion Wa as [|? ? k v ? ? seen2 ? ? M By Le Wa2]; subst. inversion Fo as [|? ? ? ? Ne Fo2]; subst. cbn [fst] in Ne.
    destruct (first (rest last (items w))) as [n|] eqn:Q.
    2:{ destruct H as (_ & _ & _ & L). pose proof (first_none _ _ Q k By) as X. rewrite L, M in X. discriminate. }
    destruct (turn_holds w t d m last n body H ltac:(congruence) Q) as (k2 & v2 & M2 & By2 & Le2 & D & Bad & Good).
    assert (k2 = k) as -> by (specialize (Le2 k By ltac:(congruence)); specialize (Le k2 By2 ltac:(congruence)); lia). rewrite M in M2. injection M2 as <-.
    assert (b = false) as -> by (destruct b; [destruct B1 as [B1 _]; discriminate (B1 eq_refl)|reflexivity]).
    destruct (Good Ne) as (tr3 & w3 & G & V & En & H3 & It3). destruct (IH w3 _ _ _ _ _ H3 It3 Wa2 Fo2) as (tr4 & w4 & b & R4 & V4 & E4 & B4).
    exists ((AtEnd t, Is false) :: (Deref t, Entry k v) :: tr3 ++ tr4), w4, b. cbn [flat_map turn app run]. rewrite E. cbn [bind fst snd]. rewrite D. cbn [bind fst snd].
    rewrite <- !app_assoc. cbn [app]. rewrite G, R4. cbn [bind fst snd]. split; [reflexivity|]. rewrite !visited_cons, !ends_cons by reflexivity. rewrite visited_app, ends_app, V, V4, En, E4. split; [reflexivity|split; [reflexivity|exact B4]].
Qed.
(** Every such walk whose turns do not remove the key they are at does happen. *)
Theorem C114_runs : forall es0 tr0 w t d m bodies seen m' last,
  run world0 es0 = Ok (tr0, w) -> own w = Some (t, d) -> shows w t m -> walk m None bodies seen m' last -> Forall2 (fun x body => ~ Exists (erases (fst x)) body) seen bodies ->
  exists tr w' b, run w (loop t bodies) = Ok (tr, w') /\ visited t tr = seen /\ ends t tr = repeat false (length bodies) ++ [b] /\ (b = true <-> forall k, beyond last k -> m' k = None).
Proof.
  intros es0 tr0 w t d m bodies seen m' last R0 O Sh Wa Fo. pose proof (shows_holds _ _ _ _ (run_inv _ _ _ _ inv0 R0) O Sh) as H.
  destruct (loop_runs bodies t d (with_iter w t (first (rest None (items w)))) m None seen m' last (holds_iter _ _ _ _ _ H)) as (tr & w' & b & R & V & En & B); [cbn [iter with_iter items]; rewrite Nat.eqb_refl; reflexivity|exact Wa|exact Fo|].
  exists ((Begin t, Nothing) :: tr), w', b. split; [exact (cons_run _ _ _ _ _ _ _ (begin_holds _ _ _ _ H) R)|]. rewrite visited_cons, ends_cons by reflexivity. split; [exact V|split; [exact En|exact B]].
Qed.
Print Assumptions C114_runs.

(** While one thread holds the lock no call of another one gets through, and what else the others do changes neither
    the map nor the position of the loop. *)
Theorem C114_others : forall w t d u, own w = Some (t, d) -> u <> t ->
  (forall e, thread e = u -> (e = Lock u \/ e = Wake u \/ (exists o, e = Call u o) \/ (exists k rm, e = Get u k rm)) -> step w e = Diverge) /\
  (forall e o w', thread e = u -> step w e = Ok (o, w') -> items w' = items w /\ own w' = own w /\ iter w' t = iter w t).
Proof.
  intros w t d u O D. split.
  - intros e T Q. assert (can w u = false) as C by (unfold can; rewrite O; lia). destruct Q as [->|[->|[(o & ->)|(k & rm & ->)]]]; unfold step; cbn [thread]; (destruct (asleep w u) as [[a b]|]; [|rewrite ?C]); try reflexivity. rewrite C. reflexivity.
  - intros e o w2 T H. rewrite <- T in D. destruct (step_other _ _ _ _ _ _ O D H) as (A & B & C & _). auto.
Qed.
Print Assumptions C114_others.

(** Defect: a loop that removes the entry it is at is undefined, with the lock held. *)
Theorem C114_erase_refuted : forall k v, run world0 ([Call 1%nat (Write k v); Lock 1%nat] ++ loop 1%nat [[Remove k]]) = UB.
Proof. intros k v. unfold loop, turn. cbn. rewrite !Z.eqb_refl. reflexivity. Qed.
Print Assumptions C114_erase_refuted.

(** Defect: without the lock begin() goes through, and another thread may remove the node. *)
Theorem C114_unlocked_refuted : forall k v, run world0 [Call 1%nat (Write k v); Begin 1%nat; Call 2%nat (Take k); Deref 1%nat] = UB /\
  exists r, run world0 [Call 1%nat (Write k v); Begin 1%nat; Deref 1%nat] = Ok r.
Proof. intros k v. cbn. rewrite !Z.eqb_refl. cbn. split; [reflexivity|]. eexists. reflexivity. Qed.
Print Assumptions C114_unlocked_refuted.

Lemma stuck w t d k rm e o w' : own w = Some (t, d) -> asleep w t = Some (k, rm) -> lookup (items w) k = None -> step w e = Ok (o, w') ->
  own w' = Some (t, d) /\ asleep w' t = Some (k, rm) /\ lookup (items w') k = None /\ (thread e = t -> o = Nothing).
Proof.
  intros O A L H. destruct (Nat.eq_dec (thread e) t) as [T|T].
  - unfold step in H. rewrite T, A in H. destruct e; try discriminate. destruct (can w t); [|discriminate]. rewrite L in H. apply Ok_inj in H. injection H as <- <-. auto.
  - destruct (step_other _ _ _ _ _ _ O T H) as (E1 & E2 & E3 & E4 & E5). unfold asleep in *. rewrite E1, E2, E4. split; [exact O|split; [exact A|split; [exact L|contradiction]]].
Qed.
(** Defect: get() of a key that is not there, under the lock, sleeps with the lock and is never woken to an entry: no
    other thread can write it, and no call of another thread gets through ever after. *)
Theorem C114_get_refuted : forall w t d k rm m o w1 es tr w2,
  own w = Some (t, d) -> shows w t m -> m k = None -> step w (Get t k rm) = Ok (o, w1) -> run w1 es = Ok (tr, w2) ->
  own w2 = Some (t, d) /\ (forall e x, In (e, x) tr -> (thread e = t -> x = Nothing) /\ (forall u c, e <> Call u c) /\ e <> Unlock t).
Proof.
  intros w t d k rm m o w1 es tr w2 O Sh M G R.
  assert (own w1 = Some (t, d) /\ asleep w1 t = Some (k, rm) /\ lookup (items w1) k = None) as (O1 & A1 & L1).
  { specialize (Sh k). unfold step in G, Sh. cbn [thread] in G, Sh. destruct (asleep w t) as [[a b]|]; [discriminate|]. destruct (can w t); [|discriminate]. cbn [call] in Sh. injection Sh as Sh. rewrite Sh, M in G. apply Ok_inj in G. injection G as <- <-.
    split; [exact O|split; [unfold asleep; cbn [sleepers with_sleepers find fst]; rewrite Nat.eqb_refl; reflexivity|cbn [items with_sleepers]; congruence]]. }
  clear G O Sh M w o. revert w1 tr O1 A1 L1 R. induction es as [|e es IH]; intros w1 tr O1 A1 L1 R; [cbn in R; injection R as <- <-; split; [exact O1|intros e x []]|].
  apply run_cons in R. destruct R as (o & w & tr1 & E & R & ->). destruct (stuck _ _ _ _ _ _ _ _ O1 A1 L1 E) as (O2 & A2 & L2 & T). destruct (IH w tr1 O2 A2 L2 R) as [X Y]. split; [exact X|].
  intros a x [Q|Q]; [|exact (Y a x Q)]. injection Q as <- <-. split; [exact T|]. split.
  - intros u c ->. unfold step in E. cbn [thread] in E. destruct (Nat.eq_dec u t) as [->|D]; [rewrite A1 in E; discriminate|]. replace (can w1 u) with false in E by (unfold can; rewrite O1; lia). destruct (asleep w1 u) as [[? ?]|]; discriminate.
  - intros ->. unfold step in E. cbn [thread] in E. rewrite A1 in E. discriminate.
Qed.
Print Assumptions C114_get_refuted.

Lemma lookup_new l k n v : lookup l k = None -> lookup (insert l k n v) k = Some v /\ lookup (erase (insert l k n v) k) k = None.
Proof.
  induction l as [|[[j i] x] r IH]; intros L; [cbn [insert lookup erase]; rewrite Z.eqb_refl; auto|]. cbn [lookup] in L. destruct (Z.eqb_spec j k) as [|D]; [discriminate|]. cbn [insert]. destruct (k <? j).
  - cbn [lookup erase]. rewrite Z.eqb_refl. cbn [lookup]. replace (j =? k) with false by lia. auto.
  - replace (k =? j) with false by lia. cbn [lookup erase]. replace (j =? k) with false by lia. cbn [lookup]. replace (j =? k) with false by lia. exact (IH L).
Qed.
(** Without the lock get() of a key that is not there sleeps until another thread has written it; then it returns the
    data, takes it out if it is told to, and the thread can go on. *)
Theorem C114_get : forall w t k rm u v o w1 w2, own w = None -> step w (Get t k rm) = Ok (Nothing, w1) -> u <> t -> step w1 (Call u (Write k v)) = Ok (o, w2) ->
  exists w3, step w2 (Wake t) = Ok (Data (Some v), w3) /\ step w3 (Call t (Look k)) = Ok (Data (if rm then None else Some v), w3) /\ own w3 = None.
Proof.
  intros w t k rm u v o w1 w2 O G U C. unfold step in G. cbn [thread] in G. destruct (asleep w t) as [[? ?]|] eqn:A; [discriminate|]. unfold can in G. rewrite O in G. destruct (lookup (items w) k) as [x|] eqn:L; [discriminate|]. apply Ok_inj in G. injection G as <-.
  unfold step in C. cbn [thread] in C. destruct (asleep _ u) as [[? ?]|]; [discriminate|]. unfold can in C. cbn [own with_sleepers] in C. rewrite O in C. cbn [call items own iter sleepers fresh with_sleepers] in C. apply Ok_inj in C. injection C as <- <-.
  destruct (lookup_new (items w) k (fresh w) v L) as [N1 N2].
  assert (forall l, find (fun s : nat * (Z * bool) => (fst s =? t)%nat) (awake l t) = None) as F.
  { unfold awake. induction l as [|a l IH]; [reflexivity|]. cbn [filter]. destruct (fst a =? t)%nat eqn:E; cbn [negb]; [exact IH|]. cbn [find]. rewrite E. exact IH. }
  unfold step at 1. cbn [thread]. unfold asleep. cbn [sleepers find fst]. rewrite Nat.eqb_refl. cbn [option_map snd]. unfold can. cbn [own]. rewrite O. cbn [items]. rewrite N1. eexists. split; [reflexivity|].
  unfold step, asleep, can, call. cbn [thread]. destruct rm; cbn [with_items with_sleepers sleepers own items]; rewrite F; cbn [option_map]; rewrite ?O, ?N1, ?N2; auto.
Qed.
Print Assumptions C114_get.
Example C114_ex_get : exists w, run world0 [Get 1%nat 5 true; Wake 1%nat; Call 2%nat (Write 5 50); Wake 1%nat; Call 1%nat (Look 5)] =
  Ok ([(Get 1%nat 5 true, Nothing); (Wake 1%nat, Nothing); (Call 2%nat (Write 5 50), Nothing); (Wake 1%nat, Data (Some 50)); (Call 1%nat (Look 5), Data None)], w).
Proof. eexists. vm_compute. reflexivity. Qed.

Definition ahead (i : nat) : list op := [Write (Z.of_nat i + 1) 0].
Lemma ahead_walk n : forall s m last, (forall j, m j = if (0 <=? j) && (j <=? Z.of_nat s) then Some 0 else None) ->
  (forall j, 0 <= j -> beyond last j <-> Z.of_nat s <= j) ->
  exists m' last', walk m last (map ahead (seq s n)) (map (fun i => (Z.of_nat i, 0)) (seq s n)) m' last' /\ beyond last' (Z.of_nat (s + n)) /\ m' (Z.of_nat (s + n)) <> None.
Proof.
  induction n as [|n IH]; intros s m last M B.
  - exists m, last. cbn [seq map]. split; [constructor|]. rewrite Nat.add_0_r. split; [apply B; lia|]. rewrite M. replace ((0 <=? Z.of_nat s) && (Z.of_nat s <=? Z.of_nat s)) with true by lia. discriminate.
  - destruct (IH (S s) (fold_left apply (ahead s) m) (Some (Z.of_nat s))) as (m' & last' & Wa & B2 & M2).
    + intros j. cbn [ahead fold_left apply]. rewrite M. destruct (Z.eqb_spec j (Z.of_nat s + 1)) as [->|D]; [replace ((0 <=? Z.of_nat s + 1) && (Z.of_nat s + 1 <=? Z.of_nat (S s))) with true by lia; reflexivity|].
      replace ((0 <=? j) && (j <=? Z.of_nat (S s))) with ((0 <=? j) && (j <=? Z.of_nat s)) by lia. reflexivity.
    + intros j J. cbn [beyond]. lia.
    + exists m', last'. rewrite <- Nat.add_succ_comm. split; [|split; assumption]. cbn [seq map]. econstructor; [| | |exact Wa].
      * rewrite M. replace ((0 <=? Z.of_nat s) && (Z.of_nat s <=? Z.of_nat s)) with true by lia. reflexivity.
      * apply B; lia.
      * intros j Bj Mj. apply B; [|exact Bj]. rewrite M in Mj. destruct (Z.leb_spec 0 j); [assumption|]. contradiction Mj. reflexivity.
Qed.
(** Defect: a loop that writes a key ahead of it at every turn never comes to the end. *)
Theorem C114_endless_refuted : forall n, exists tr w', run world0 ([Call 1%nat (Write 0 0); Lock 1%nat] ++ loop 1%nat (map ahead (seq 0 n))) = Ok (tr, w') /\ length (visited 1%nat tr) = n /\ last (ends 1%nat tr) true = false.
Proof.
  intros n. assert (exists tr0 w, run world0 [Call 1%nat (Write 0 0); Lock 1%nat] = Ok (tr0, w) /\ own w = Some (1%nat, 1%nat) /\ shows w 1%nat (fun j => if (0 <=? j) && (j <=? Z.of_nat 0) then Some 0 else None) /\
    (forall es, run world0 ([Call 1%nat (Write 0 0); Lock 1%nat] ++ es) = do q <- run w es; Ok (tr0 ++ fst q, snd q)) /\ visited 1%nat tr0 = [] /\ ends 1%nat tr0 = []) as (tr0 & w & R0 & O & Sh & Ap & V0 & E0).
  { do 2 eexists. split; [reflexivity|]. split; [reflexivity|split; [|split; [|split; reflexivity]]].
    - intros k. unfold step. cbn. destruct (Z.eqb_spec 0 k) as [<-|D]; [reflexivity|]. replace ((0 <=? k) && (k <=? 0)) with false by lia. destruct k; [contradiction|reflexivity|reflexivity].
    - intros es. cbn. match goal with |- context [run ?x es] => destruct (run x es) as [[a b]| | |] end; reflexivity. }
  destruct (ahead_walk n 0 _ None (fun j => eq_refl)) as (m' & la & Wa & B & M); [intros j J; cbn [beyond]; split; [lia|intros _; exact I]|].
  destruct (C114_runs _ _ _ _ _ _ _ _ _ _ R0 O Sh Wa) as (tr & w' & b & R & V & En & Bb).
  - clear. generalize 0%nat as s. induction n as [|n IH]; intros s; cbn [seq map]; constructor; [|apply IH]. intros X. apply Exists_exists in X. destruct X as (o & [<-|[]] & [Q|Q]); discriminate.
  - exists (tr0 ++ tr), w'. rewrite Ap, R. cbn [bind fst snd]. split; [reflexivity|]. rewrite visited_app, ends_app, V0, E0, V, En. cbn [app]. rewrite map_length, seq_length, last_last. split; [reflexivity|].
    destruct b; [|reflexivity]. contradiction M. apply (proj1 Bb eq_refl). exact B.
Qed.
Print Assumptions C114_endless_refuted.

(** Another thread writes two keys and is then kept out; the loop sees key 3 with the data it has just written, its new
    key 7, and not key 5, which it removes ahead of itself. *)
Example C114_ex :
  exists r, run world0 ([Call 2%nat (Write 5 50); Call 2%nat (Write 1 10); Call 2%nat (Write 3 30); Lock 1%nat] ++ loop 1%nat [[Write 3 33; Take 5]; [Write 7 70; Look 1]; [Take 1]] ++ [Unlock 1%nat; Call 2%nat (Look 1)]) = Ok r /\
    visited 1%nat (fst r) = [(1, 10); (3, 33); (7, 70)] /\ ends 1%nat (fst r) = [false; false; false; true] /\ last (map snd (fst r)) Nothing = Data None.
Proof. eexists. split; [vm_compute; reflexivity|]. vm_compute. repeat split. Qed.
(** Without the lock get() lets the other thread in, and comes back with what it wrote. *)
Example C114_get_ex :
  exists r, run world0 [Get 1%nat 4 true; Wake 1%nat; Call 2%nat (Write 4 40); Wake 1%nat; Call 2%nat (Look 4)] = Ok r /\
    map snd (fst r) = [Nothing; Nothing; Nothing; Data (Some 40); Data None].
Proof. eexists. split; [vm_compute; reflexivity|]. vm_compute. reflexivity. Qed.
