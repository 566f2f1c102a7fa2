(** What a user expects of a configuration table, without cache, statements or files. *)
From Verif Require Import Base UtilsModel UtilsSpec SqlModel ConfigModel.
Local Open Scope Z_scope.

(** Values written so far: table, key. *)
Definition written := nat -> list Z -> option (list Z).
Definition put (m : written) (t : nat) (k : list Z) (v : option (list Z)) : written :=
  fun t' k' => if (t' =? t)%nat then if weqb k k' then v else m t' k' else m t' k'.
Definition value_of (S : schema) (m : written) (t : nat) (k : list Z) : option (list Z) :=
  match m t k with
  | Some v => Some v
  | None => match S k with Some (default, _) => Some default | None => None end
  end.
Definition spec_step (S : schema) (m : written) (e : event) : output * written :=
  match e with
  | ESet t k v up => (OBool up, if up then put m t k (Some v) else m)
  | ERemove t k up => (OBool up, if up then put m t k None else m)
  | EGet t k _ => (OVal (value_of S m t k), m)
  | EPurge _ | ETick _ | EExternal _ _ => (ONone, m)
  end.
Fixpoint spec_run (S : schema) (m : written) (l : list event) : list output * written :=
  match l with
  | [] => ([], m)
  | e :: t => let (o, m) := spec_step S m e in let (os, m) := spec_run S m t in (o :: os, m)
  end.

(** Rows of a table as a map. *)
Fixpoint row_of (r : rows) (k : list Z) : option (list Z) :=
  match r with
  | [] => None
  | (x, v) :: t => if weqb x k then match v with Some v => Some (c_str v) | None => None end else row_of t k
  end.
Definition contents (w : world) : written := fun t k => row_of (tdb (tabs w t)) k.

(** Keys and values whose text cannot be confused with SQL. *)
Definition quote_free (q : Z) (s : list Z) : Prop := ~ In q s /\ ~ In 0 s.
Definition names_column (k : list Z) : Prop :=
  In (upper k) [lit "KEYSTRING"; lit "VALUESTRING"; lit "STATIC"; lit "OPTIONAL"; lit "COMMENTS"; lit "ROWID"; lit "OID"; lit "_ROWID_"].
Definition plain_event (S : schema) (e : event) : Prop :=
  match e with
  | ESet t k v _ => quote_free 34 k /\ quote_free 34 v /\ (forall d text, S k = Some (d, text) -> quote_free 39 text)
  | ERemove t k _ => quote_free 39 k
  | EGet t k up => quote_free 34 k /\ ~ names_column k /\ up = true
  | EPurge _ | ETick _ => True
  | EExternal _ _ => False
  end.

(** All states a history goes through, the first and the last included. *)
Fixpoint states (S : schema) (w : world) (l : list event) : list world :=
  w :: match l with [] => [] | e :: t => states S (snd (cstep S w e)) t end.
(** Only table [t] is used, the clock is never set back. *)
Definition only_table (t : nat) (e : event) : Prop :=
  match e with
  | ESet t' _ _ _ | ERemove t' _ _ | EGet t' _ _ | EPurge t' | EExternal t' _ => t' = t
  | ETick d => 0 <= d
  end.
(** Plain events and changes by others. *)
Definition fair_event (S : schema) (e : event) : Prop :=
  match e with EExternal _ _ => True | _ => plain_event S e end.

(** ** Numbers *)
(** Digits with their place values. *)
Fixpoint positional (base : Z) (ds : list Z) : Z :=
  match ds with
  | [] => 0
  | d :: t => d * base ^ Z.of_nat (length t) + positional base t
  end.
(** The value of a digit character. *)
Definition char_of_digit (d c : Z) : Prop :=
  (0 <= d < 10 /\ c = 48 + d) \/ (10 <= d < 36 /\ (c = 97 + (d - 10) \/ c = 65 + (d - 10))).
Definition digit_string (base : Z) (ds : list Z) (s : list Z) : Prop :=
  Forall2 (fun d c => d < base /\ char_of_digit d c) ds s.
Definition stops (base : Z) (rest : list Z) : Prop :=
  match rest with [] => True | c :: _ => forall d, d < base -> ~ char_of_digit d c end.
Definition sign_of (sign : list Z) : Z := match sign with [45] => -1 | _ => 1 end.
Definition is_sign (sign : list Z) : Prop := sign = [] \/ sign = [43] \/ sign = [45].
Definition saturate (z : Z) : Z := if z <? - 2 ^ 63 then - 2 ^ 63 else if z <? 2 ^ 63 then z else 2 ^ 63 - 1.

(** ** Vectors: the runs of characters other than the space. *)
Inductive splits : list Z -> list (list Z) -> Prop :=
| splits_nil : splits [] []
| splits_space t l : splits t l -> splits (32 :: t) l
| splits_word w rest l : w <> [] -> ~ In 32 w -> (rest = [] \/ exists t, rest = 32 :: t) -> splits rest l -> splits (w ++ rest) (w :: l).
Fixpoint join_sp (l : list (list Z)) : list Z :=
  match l with
  | [] => []
  | [w] => w
  | w :: t => w ++ 32 :: join_sp t
  end.
