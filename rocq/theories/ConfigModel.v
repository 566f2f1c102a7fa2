(** Model of ConfigurationTable (Configuration.cpp, Configuration.h): the cache, the
    statements it sends to the database, numbers and vectors.

    The cache is a std::map<HashString,...>.  HashString::operator< is not const, so
    std::less cannot use it and the map is ordered by std::string: it is modelled as a map
    keyed by strings.  Every public call holds mLock, so calls are atomic (C92).  Log output and
    mCRWarned (which only limits it) are left out; the schema does not change. *)
From Verif Require Import Base UtilsModel SqlModel.
Local Open Scope Z_scope.

(** Configuration.cpp:45-53 *)
Definition config_table : table :=
  Table (lit "CONFIG") (lit "KEYSTRING") (lit "VALUESTRING") [lit "STATIC"; lit "OPTIONAL"; lit "COMMENTS"].
(** mSchema: default value and description of the keys the application knows (Configuration.h:204). *)
Definition schema := list Z -> option (list Z * list Z).

(** ConfigurationRecord: the value, or [None] for a key known to be undefined (Configuration.h:74-115). *)
Definition cache := list (list Z * option (list Z)).
(** mCache.find, Configuration.cpp:667 *)
Fixpoint cfind (c : cache) (k : list Z) : option (option (list Z)) :=
  match c with
  | [] => None
  | (x, v) :: t => if weqb x k then Some v else cfind t k
  end.
(** mCache.erase, as in Configuration.cpp:833-834 *)
Definition cerase (c : cache) (k : list Z) : cache := filter (fun e => negb (weqb (fst e) k)) c.
(** mCache[key] = value, Configuration.cpp:683, 686, 689 and 905 *)
Definition cset (c : cache) (k : list Z) (v : option (list Z)) : cache := (k, v) :: cerase c k.

(** checkCacheAge, Configuration.cpp:916-932.  [last] is the static timeOfLastPurge,
    one for all tables. *)
Definition checkCacheAge (now last : Z) (c : cache) : Z * cache :=
  if now - last <? 3 then (last, c) else (now, []).

(** lookup, Configuration.cpp:658-697: [Some v] is the value, [None] the exception
    ConfigurationTableKeyNotFound.  [up] is false if the database fails. *)
Definition lookup (S : schema) (up : bool) (now last : Z) (c : cache) (r : rows) (key : list Z) : option (list Z) * (Z * cache) :=
  let (last, c) := checkCacheAge now last c in
  match cfind c key with
  | Some v => (v, (last, c))
  | None =>
      let v := match snd (single_lookup config_table up r key) with
               | Some v => Some v
               | None => match S key with Some (d, _) => Some d | None => None end
               end in
      (v, (last, cset c key v))
  end.

(** set, Configuration.cpp:892-907 *)
Definition set_cmd (S : schema) (key value : list Z) : list Z :=
  match S key with
  | Some (_, description) =>
      lit "INSERT OR REPLACE INTO CONFIG (KEYSTRING,VALUESTRING,OPTIONAL,COMMENTS) VALUES (""" ++ key ++ lit """,""" ++ value ++ lit """,1,'" ++ description ++ lit "')"
  | None =>
      lit "INSERT OR REPLACE INTO CONFIG (KEYSTRING,VALUESTRING,OPTIONAL) VALUES (""" ++ key ++ lit """,""" ++ value ++ lit """,1)"
  end.
(** set, Configuration.cpp:892-907 *)
Definition set_ (S : schema) (up : bool) (c : cache) (r : rows) (key value : list Z) : bool * (cache * rows) :=
  let (success, r) := command config_table up r (set_cmd S key value) in
  (success, (if success then cset c key (Some value) else c, r)).
(** remove, Configuration.cpp:827-838 *)
Definition remove_cmd (key : list Z) : list Z := lit "DELETE FROM CONFIG WHERE KEYSTRING=='" ++ key ++ lit "'".
(** remove, Configuration.cpp:827-838 *)
Definition remove_ (up : bool) (c : cache) (r : rows) (key : list Z) : bool * (cache * rows) :=
  let c := cerase c key in
  let (success, r) := command config_table up r (remove_cmd key) in
  (success, (c, r)).

(** ** Histories over any number of tables *)
(** Configuration.cpp:658-944 *)
Record ctable := CTable { tcache : cache; tdb : rows }.
(** The time, the static timeOfLastPurge (Configuration.cpp:919), the tables. *)
Record world := World { now : Z; lastPurge : Z; tabs : nat -> ctable }.
(** Helper: a table changed (not in the source). *)
Definition set_tab (w : world) (last : Z) (t : nat) (c : cache) (r : rows) : world :=
  World (now w) last (fun j => if (j =? t)%nat then CTable c r else tabs w j).

(** What happens: calls to a table, the clock, another process (Configuration.cpp:658-944). *)
Inductive event :=
| ESet (t : nat) (key value : list Z) (up : bool)
| ERemove (t : nat) (key : list Z) (up : bool)
| EGet (t : nat) (key : list Z) (up : bool)       (* getStr and the other getters *)
| EPurge (t : nat)                                (* Configuration.cpp:935-944 *)
| ETick (d : Z)                                   (* the clock advances *)
| EExternal (t : nat) (r : rows).                 (* another process changes the database *)
(** What a call returns (Configuration.cpp:658-944). *)
Inductive output := OBool (b : bool) | OVal (v : option (list Z)) | ONone.

(** One event, by the functions above (Configuration.cpp:658-944). *)
Definition cstep (S : schema) (w : world) (e : event) : output * world :=
  match e with
  | ESet t k v up =>
      let '(b, (c, r)) := set_ S up (tcache (tabs w t)) (tdb (tabs w t)) k v in (OBool b, set_tab w (lastPurge w) t c r)
  | ERemove t k up =>
      let '(b, (c, r)) := remove_ up (tcache (tabs w t)) (tdb (tabs w t)) k in (OBool b, set_tab w (lastPurge w) t c r)
  | EGet t k up =>
      let '(v, (last, c)) := lookup S up (now w) (lastPurge w) (tcache (tabs w t)) (tdb (tabs w t)) k in
      (OVal v, set_tab w last t c (tdb (tabs w t)))
  | EPurge t => (ONone, set_tab w (lastPurge w) t [] (tdb (tabs w t)))
  | ETick d => (ONone, World (now w + d) (lastPurge w) (tabs w))
  | EExternal t r => (ONone, set_tab w (lastPurge w) t (tcache (tabs w t)) r)
  end.
(** The events of a history (Configuration.cpp:658-944). *)
Fixpoint crun (S : schema) (w : world) (l : list event) : list output * world :=
  match l with
  | [] => ([], w)
  | e :: t => let (o, w) := cstep S w e in let (os, w) := crun S w t in (o :: os, w)
  end.

(** defines, Configuration.cpp:344-354, getStr 713-724 *)
Definition defines (v : option (list Z)) : bool := match v with Some _ => true | None => false end.

(** getAllPairs, Configuration.cpp:865-890: straight from the database. *)
Fixpoint getAllPairs (r : rows) : cache :=
  match r with
  | [] => []
  | (k, v) :: t => let rest := getAllPairs t in
      (* later rows overwrite earlier ones *)
      match cfind rest (c_str k) with Some _ => rest | None => (c_str k, option_map c_str v) :: rest end
  end.

(** ** Numbers *)
(** sprintf("%ld"), Configuration.cpp:909-914 *)
Fixpoint dec_digits (fuel : nat) (n : Z) : list Z :=
  match fuel with
  | O => []
  | S k => (if n <? 10 then [] else dec_digits k (n / 10)) ++ [48 + n mod 10]
  end.
(** sprintf with %ld, Configuration.cpp:912 *)
Definition sprintf_ld (z : Z) : list Z := if z <? 0 then 45 :: dec_digits 20 (- z) else dec_digits 20 z.

(** strtol(s,&end,0): white space, sign, prefix, digits; the value is limited to long. *)
Definition digit_val (base c : Z) : option Z :=
  let d := if (48 <=? c) && (c <=? 57) then c - 48
           else if (97 <=? c) && (c <=? 122) then c - 87
           else if (65 <=? c) && (c <=? 90) then c - 55 else 99 in
  if d <? base then Some d else None.
(** Helper of [strtol]: the value of the digits (Configuration.cpp:67 and 819). *)
Fixpoint digits_val (base : Z) (s : list Z) (v : Z) : Z :=
  match s with
  | [] => v
  | c :: t => match digit_val base c with Some d => digits_val base t (base * v + d) | None => v end
  end.
(** Helper of [strtol]: white space in front (Configuration.cpp:67 and 819). *)
Fixpoint skip_space (s : list Z) : list Z :=
  match s with [] => [] | c :: t => if isspace c then skip_space t else s end.
(** The range of long (Configuration.cpp:67 and 819). *)
Definition clamp (z : Z) : Z := Z.max (- 2 ^ 63) (Z.min (2 ^ 63 - 1) z).
(** Helper of [strtol]: prefix and digits (Configuration.cpp:67 and 819). *)
Definition magnitude (s : list Z) : Z :=
  match s with
  | [] => 0
  | c :: t =>
      if c =? 48 then
        match t with
        | x :: h :: t' =>
            if ((x =? 120) || (x =? 88)) && match digit_val 16 h with Some _ => true | None => false end
            then digits_val 16 (h :: t') 0 else digits_val 8 s 0
        | _ => digits_val 8 s 0
        end
      else digits_val 10 s 0
  end.
(** strtol with base 0, Configuration.cpp:67 and 819. *)
Definition strtol (s : list Z) : Z :=
  match skip_space s with
  | [] => 0
  | c :: t =>
      if c =? 45 then clamp (- magnitude t)
      else if c =? 43 then clamp (magnitude t)
      else clamp (magnitude (c :: t))
  end.
(** ConfigurationRecord::number, Configuration.cpp:59-74: 0 for an empty value. *)
Definition number (value : list Z) : Z := match value with [] => 0 | _ => strtol (c_str value) end.
Definition getNum (v : option (list Z)) : option Z := option_map number v.                     (* 740-751 *)
Definition getBool (v : option (list Z)) : option bool := option_map (fun x => negb (x =? 0)) (getNum v).   (* 727-737 *)

(** ** Vectors *)
(** strsep(&lp," "): the field and the rest ([None]: no separator left) (Configuration.cpp:784-790 and 816-820). *)
Fixpoint strsep (s : list Z) : list Z * option (list Z) :=
  match s with
  | [] => ([], None)
  | c :: t => if c =? 32 then ([], Some t) else let (f, r) := strsep t in (c :: f, r)
  end.
(** The loop over blanks, Configuration.cpp:785 and 817. *)
Fixpoint skip_blank (s : list Z) : list Z :=
  match s with [] => [] | c :: t => if c =? 32 then skip_blank t else s end.
(** getVectorOfStrings, Configuration.cpp:765-793; the loop makes progress, [fuel] is the length. *)
Fixpoint vec_strings (fuel : nat) (s : list Z) : list (list Z) :=
  match fuel with
  | O => []
  | S n =>
      match skip_blank s with
      | [] => []
      | s' => let (f, r) := strsep s' in f :: match r with Some t => vec_strings n t | None => [] end
      end
  end.
(** getVectorOfStrings, Configuration.cpp:765-793 *)
Definition getVectorOfStrings (value : list Z) : list (list Z) := vec_strings (S (length value)) (c_str value).
(** getVector, Configuration.cpp:796-824: strtol reads from the field on, to the end of the line. *)
Fixpoint vec_nums (fuel : nat) (s : list Z) : list Z :=
  match fuel with
  | O => []
  | S n =>
      match skip_blank s with
      | [] => []
      | s' => u32 (strtol s') :: match snd (strsep s') with Some t => vec_nums n t | None => [] end
      end
  end.
(** getVector, Configuration.cpp:796-824 *)
Definition getVector (value : list Z) : list Z := vec_nums (S (length value)) (c_str value).
