(** Model of SimpleKeyValue and HashString (Configuration.cpp:970-1035, Configuration.h:119-180,332-352). *)
From Verif Require Import Base UtilsModel SqlModel ConfigModel.
Local Open Scope Z_scope.

(** ** HashString *)
(** computeHash, Configuration.cpp:970-979; [cstr[i]] is a signed char. *)
Definition hash_step (h c : Z) : Z :=
  let h := Z.lxor h (Z.shiftr h 32) in
  u64 (h * 127 + s8 c).
(** The loop of computeHash, Configuration.cpp:975-978. *)
Definition computeHash (s : list Z) : Z := fold_left hash_step s 0.
(** operator==, < and >, Configuration.h:162-175: the hashes are compared, > like <. *)
Definition hs_eq (a b : list Z) : bool := computeHash a =? computeHash b.
(** operator<, Configuration.h:162-175 *)
Definition hs_lt (a b : list Z) : bool := computeHash a <? computeHash b.
(** operator>, Configuration.h:162-175: it is written with < as well. *)
Definition hs_gt (a b : list Z) : bool := computeHash a <? computeHash b.

(** ** SimpleKeyValue
    HashStringMap is keyed by strings, as explained in ConfigModel.v.  [leaked] counts
    the blocks of strdup that are never freed. *)
(** Configuration.cpp:982-1035 *)
Definition kvmap := list (list Z * list Z).
(** HashStringMap::find, Configuration.cpp:998 *)
Fixpoint kvfind (m : kvmap) (k : list Z) : option (list Z) :=
  match m with
  | [] => None
  | (x, v) :: t => if weqb x k then Some v else kvfind t k
  end.
(** SimpleKeyValue, Configuration.h:332-352: its map; [leaked] is only for statements. *)
Record kv := Kv { mMap : kvmap; leaked : Z }.

(** strchr(pair,'='): text before and after (Configuration.cpp:982-1035). *)
Fixpoint strchr_eq (s : list Z) : option (list Z * list Z) :=
  match s with
  | [] => None
  | c :: t => if c =? 61 then Some ([], t)
              else match strchr_eq t with Some (a, b) => Some (c :: a, b) | None => None end
  end.
(** addItem, Configuration.cpp:982-993 *)
Definition addItem (m : kv) (pair_orig : list Z) : kv :=
  match strchr_eq (c_str pair_orig) with
  | None => Kv (mMap m) (leaked m + 1)
  | Some (key, value) => Kv ((key, value) :: filter (fun e => negb (weqb (fst e) key)) (mMap m)) (leaked m)
  end.
(** addItems, Configuration.cpp:1027-1035: strsep leaves pairs NULL, so free gets NULL. *)
Fixpoint addItems_ (fuel : nat) (m : kv) (pairs : option (list Z)) : kv :=
  match fuel with
  | O => m
  | S n =>
      match pairs with
      | None => m
      | Some s => let (thisPair, rest) := strsep s in addItems_ n (addItem m thisPair) rest
      end
  end.
(** addItems, Configuration.cpp:1027-1035 *)
Definition addItems (m : kv) (pairs_orig : list Z) : kv :=
  let m := addItems_ (S (length pairs_orig)) m (Some (c_str pairs_orig)) in
  Kv (mMap m) (leaked m + 1).

(** get, getStrOrBust, getNumOrBust, getNum, Configuration.cpp:997-1023.  [None] is NULL
    or the exception.  atol is undefined outside the range of long. *)
Definition kv_get (m : kv) (key : list Z) : option (list Z) := option_map c_str (kvfind (mMap m) (c_str key)).
(** getStrOrBust, Configuration.cpp:1003-1008; None: the exception. *)
Definition getStrOrBust (m : kv) (key : list Z) : option (list Z) := kvfind (mMap m) (c_str key).
(** atol, as used at Configuration.cpp:1015 and 1023. *)
Definition atol (s : list Z) : res Z :=
  let z := match skip_space s with
           | [] => 0
           | c :: t => if c =? 45 then - digits_val 10 t 0
                       else if c =? 43 then digits_val 10 t 0 else digits_val 10 (c :: t) 0
           end in
  if (- 2 ^ 63 <=? z) && (z <? 2 ^ 63) then Ok z else UB.
(** getNumOrBust, Configuration.cpp:1010-1016; None: the exception. *)
Definition getNumOrBust (m : kv) (key : list Z) : option (res Z) := option_map atol (kv_get m key).
(** The value and the flag afterwards (Configuration.cpp:1018-1024). *)
Definition kv_getNum (m : kv) (key : list Z) (valid : bool) : res Z * bool :=
  match kv_get m key with
  | None => (Ok 0, false)
  | Some v => (atol v, valid)
  end.
