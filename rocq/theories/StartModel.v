(** Model of the construction of a ConfigurationTable and of all its calls on a table that could be
    opened or not, with the two hooks (Configuration.cpp:96-207, 713-748, 947-967).

    Cache, statements and schema: ConfigModel.v and SchemaModel.v.  What LOG itself looks up to find
    its level is left out (LogFileModel.v).  The update hook is the one it is meant for, a callback
    that purges the cache of the table; whether SQLite calls it for a statement is left open. *)
From Verif Require Import Base UtilsModel SqlModel ConfigModel SchemaModel.
Local Open Scope Z_scope.

(** mCrossCheck: set by the constructor only if the database could be opened (Configuration.cpp:96-209 and 344-967). *)
Inductive hook := Unset | NoHook | Hook (f : list Z -> list (list Z)).
(** mDB ([None]: NULL) with what the database has, mSchema, mCache, mCrossCheck, the update hook (Configuration.cpp:96-209 and 344-967). *)
Record ct := CT { mDB : option rows; mSchema : keymap; mCache : cache; mCrossCheck : hook; purges : bool }.
(** What is logged: Configuration.cpp:108, 115, 191, 198, 203, 207. *)
Inductive report :=
| CannotOpen | CannotCreate | Heading (cmd : list Z) | Corrupt (name key : list Z) | NonDefault (name value default : list Z) | Caught.

(** The loop of Configuration.cpp:194-205; the clock and the success of the n-th query. *)
Fixpoint dump (S : schema) (clock : nat -> Z) (up : nat -> bool) (r : rows) (n : nat) (view : keymap) (last : Z) (c : cache) : list report * (Z * cache) :=
  match view with
  | [] => ([], (last, c))
  | (name, key) :: view =>
      let bad := if weqb name (kname key) then [] else [Corrupt name (kname key)] in
      let '(v, (last, c)) := lookup S (up n) (clock n) last c r name in
      match v with
      | None => (bad ++ [Caught], (last, c))
      | Some v =>
          let line := if weqb v (kdefault key) then [] else [NonDefault name v (kdefault key)] in
          let (l, s) := dump S clock up r (n + 1) view last c in (bad ++ line ++ l, s)
      end
  end.
(** The constructor, Configuration.cpp:96-209.  [opens] and [creates]: do sqlite3_open and the command
    creating the table succeed; [file]: what the file has. *)
Definition construct (opens creates : bool) (file : rows) (gCmdName : list Z) (wCmdName : option (list Z)) (wSchema : keymap)
    (clock : nat -> Z) (up : nat -> bool) (last : Z) : res (list report * (ct * Z * list Z)) :=
  do gCmdName <- set_cmd_name gCmdName wCmdName;
  if opens then
    let m := make_schema wSchema in
    let failure := if creates then [] else [CannotCreate] in
    let heading := Heading (match wCmdName with Some w => w | None => [] end) in
    let '(l, (last, c)) := dump (schema_of m) clock up file 0 (getSimilarKeys m []) last [] in
    Ok (failure ++ heading :: l, (CT (Some file) m c NoHook false, last, gCmdName))
  else Ok ([CannotOpen], (CT None [] [] Unset false, last, gCmdName)).

(** The calls.  [Get]: getStr, and getNum, getBool, getFloat and the vectors, which work on the same text (Configuration.cpp:96-209 and 344-967). *)
Inductive call :=
| Get (k : list Z) | Defines (k : list Z) | Set_ (k v : list Z) | Remove (k : list Z) | Find (pat : list Z) | AllPairs
| Purge | SetUpdateHook (on : bool) | SetCrossCheck (f : option (list Z -> list (list Z))) | CrossCheck (k : list Z) | Known (k : list Z) | Static (k : list Z).
(** [Value None]: ConfigurationTableKeyNotFound (Configuration.cpp:96-209 and 344-967). *)
Inductive answer := Value (v : option (list Z)) | Flag (b : bool) | Printed (s : list Z) | Pairs (l : cache) | Texts (l : list (list Z)) | Nothing.
(** One call; [fires]: does SQLite call the update hook while the statement runs (Configuration.cpp:96-209 and 344-967). *)
Definition step (t : ct) (now : Z) (up fires : bool) (last : Z) (q : call) : res (answer * (ct * Z)) :=
  let with_cache c := CT (mDB t) (mSchema t) c (mCrossCheck t) (purges t) in
  match q with
  | Get k =>                                            (* Configuration.cpp:658-697, 713-724 *)
      match mDB t with
      | None => Abort
      | Some r => let '(v, (last, c)) := lookup (schema_of (mSchema t)) up now last (mCache t) r k in Ok (Value v, (with_cache c, last))
      end
  | Defines k =>                                        (* 344-354 *)
      match mDB t with
      | None => Abort
      | Some r => let '(v, (last, c)) := lookup (schema_of (mSchema t)) up now last (mCache t) r k in Ok (Flag (defines v), (with_cache c, last))
      end
  | Set_ k v =>                                         (* 892-907 *)
      match mDB t with
      | None => Abort
      | Some r =>
          let (success, r) := command config_table up r (set_cmd (schema_of (mSchema t)) k v) in
          let c := if fires && purges t then [] else mCache t in
          let c := if success then cset c k (Some v) else c in
          Ok (Flag success, (CT (Some r) (mSchema t) c (mCrossCheck t) (purges t), last))
      end
  | Remove k =>                                         (* 827-838 *)
      match mDB t with
      | None => Abort
      | Some r =>
          let c := cerase (mCache t) k in
          let (success, r) := command config_table up r (remove_cmd k) in
          let c := if fires && purges t then [] else c in
          Ok (Flag success, (CT (Some r) (mSchema t) c (mCrossCheck t) (purges t), last))
      end
  | Find pat =>                                         (* 842-862: sqlite3_prepare refuses NULL *)
      Ok (Printed (match mDB t with Some r => if up then find_out pat r else [] | None => [] end), (t, last))
  | AllPairs =>                                         (* 865-890 *)
      Ok (Pairs (match mDB t with Some r => if up then getAllPairs r else [] | None => [] end), (t, last))
  | Purge => Ok (Nothing, (with_cache [], last))        (* 935-944 *)
  | SetUpdateHook on =>                                 (* 947-951 *)
      match mDB t with None => Abort | Some _ => Ok (Nothing, (CT (mDB t) (mSchema t) (mCache t) (mCrossCheck t) on, last)) end
  | SetCrossCheck f =>                                  (* 954-957 *)
      Ok (Nothing, (CT (mDB t) (mSchema t) (mCache t) (match f with Some f => Hook f | None => NoHook end) (purges t), last))
  | CrossCheck k =>                                     (* 960-968 *)
      match mCrossCheck t with
      | Unset => UB
      | NoHook => Ok (Texts [], (t, last))
      | Hook f => Ok (Texts (f k), (t, last))
      end
  | Known k => Ok (Flag (keyDefinedInSchema (mSchema t) k), (t, last))
  | Static k => Ok (Flag (isStatic (mSchema t) k), (t, last))
  end.
(** Calls with the time, the state of the database and the hook (Configuration.cpp:96-209 and 344-967). *)
Definition moment := (Z * bool * bool * call)%type.
(** Calls of Configuration.cpp:344-967 one after the other, with what they return. *)
Fixpoint run (t : ct) (last : Z) (l : list moment) : res (list answer * (ct * Z)) :=
  match l with
  | [] => Ok ([], (t, last))
  | (now, up, fires, q) :: l => do (a, s) <- step t now up fires last q; do (al, s) <- run (fst s) (snd s) l; Ok (a :: al, s)
  end.
