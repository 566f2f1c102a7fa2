(** Model of a whole LOG statement (Logger.h:56-79, Logger.cpp:97-238) with the configuration it asks for
    the level and for the number of alarms, and the database behind it, which logs its own failures.

    LOG calls the configuration, the configuration the database, and the database the logger; [fuel] bounds
    the depth of calls between them, and running out of it is [Diverge].  One thread; no log group
    (C64 has them); the locks are left out (C98).  Simplified: a record is what it reports, not its text
    (C64, C84); the echo to the console and the file and the warnings of number() are left out. *)
From Verif Require Import Base UtilsModel SqlModel KvModel.
From Verif Require LoggerModel.
From Verif Require Import ConfigModel.
Local Open Scope Z_scope.

(** What is reported: a statement that failed (sqlite3util.cpp:61, 82), an unknown level (Logger.cpp:105), a
    missing parameter (gLogEarly, Configuration.cpp:721, 747), the record of the statement itself. *)
Inductive note := DbError | BadLevel (key value : list Z) | Missing (key : list Z) | Own (file : list Z) (level : Z).
(** The clock and the success of the database by the number of the call, mSchema, sLoggerInited (Logger.cpp:97-238). *)
Record env := Env { clock : nat -> Z; up : nat -> bool; mSchema : schema; inited : bool }.
(** mCache, timeOfLastPurge and the database; sLogCache and sCacheCount; alarmsList; what went to syslog,
    with its priority; the numbers of calls of time() and of statements so far (Logger.cpp:97-238). *)
Record st := St { mCache : cache; lastPurge : Z; db : rows; sLogCache : list (Z * Z); sCacheCount : Z;
  alarms : list note; out : list (Z * note); times : nat; stmts : nat }.
(** mCache written, Configuration.cpp:683-689, 905 and 928-931. *)
Definition with_cache (s : st) (c : cache) : st := St c (lastPurge s) (db s) (sLogCache s) (sCacheCount s) (alarms s) (out s) (times s) (stmts s).
(** alarmsList written, Logger.cpp:202-203. *)
Definition with_alarms (s : st) (a : list note) : st := St (mCache s) (lastPurge s) (db s) (sLogCache s) (sCacheCount s) a (out s) (times s) (stmts s).
(** syslog, Logger.cpp:219, and gLogEarly, 324-331. *)
Definition say (s : st) (level : Z) (x : note) : st := St (mCache s) (lastPurge s) (db s) (sLogCache s) (sCacheCount s) (alarms s) (out s ++ [(level, x)]) (times s) (stmts s).
(** sLogCache and sCacheCount written, Logger.cpp:156-177. *)
Definition with_levels (s : st) (m : list (Z * Z)) (n : Z) : st := St (mCache s) (lastPurge s) (db s) m n (alarms s) (out s) (times s) (stmts s).
(** One more statement, which leaves [r] (sqlite3util.cpp:50-95). *)
Definition stated (s : st) (r : rows) : st := St (mCache s) (lastPurge s) r (sLogCache s) (sCacheCount s) (alarms s) (out s) (times s) (S (stmts s)).
(** checkCacheAge, Configuration.cpp:916-932 *)
Definition aged (E : env) (s : st) : st :=
  let (l, c) := checkCacheAge (clock E (times s)) (lastPurge s) (mCache s) in
  St c l (db s) (sLogCache s) (sCacheCount s) (alarms s) (out s) (S (times s)) (stmts s).
(** The loop of addAlarm, Logger.cpp:203 *)
Fixpoint trim (l : list note) (max : Z) : list note :=
  match l with
  | [] => []
  | _ :: t => if max <? Z.of_nat (length l) then trim t max else l
  end.
(** The text of Configuration.cpp:676-678 and sqlite3util.cpp:322. *)
Definition select_cmd (key : list Z) : list Z := lit "SELECT VALUESTRING FROM CONFIG WHERE KEYSTRING == """ ++ c_str key ++ lit """".
(** Is a statement refused by sqlite3_prepare_statement or sqlite3_run_query? *)
Definition refused (E : env) (s : st) (text : list Z) : bool :=
  negb (up E (stmts s)) || match sql config_table text (db s) with Some _ => false | None => true end.

(** _LOG and ~Log, Logger.h:56-58, Logger.cpp:198-219.  An exception of getNum leaves a
    destructor: [Abort] (before C++11 it goes on to the caller instead, with alarmsLock held, see C98). *)
Fixpoint record_ (fuel : nat) (E : env) (s : st) (level : Z) (x : note) : res st :=
  match fuel with
  | O => Diverge
  | S k =>
      do s <- (if (level <=? 2) && inited E then
                 do (v, s) <- lookup_ k E (with_alarms s (alarms s ++ [x])) (lit "Log.Alarms.Max");
                 match v with Some v => Ok (with_alarms s (trim (alarms s) (u32 (number v)))) | None => Abort end
               else Ok s);
      Ok (say s level x)
  end
(** lookup, Configuration.cpp:658-697, and the report of sqlite3util.cpp:59-82 if it fails; [None]: it throws. *)
with lookup_ (fuel : nat) (E : env) (s : st) (key : list Z) : res (option (list Z) * st) :=
  match fuel with
  | O => Diverge
  | S k =>
      let s := aged E s in
      match cfind (mCache s) key with
      | Some v => Ok (v, s)
      | None =>
          let value := match snd (single_lookup config_table (up E (stmts s)) (db s) key) with
                       | Some v => Some v
                       | None => option_map fst (mSchema E key)
                       end in
          do s <- (if refused E s (select_cmd key) then record_ k E (stated s (db s)) 3 DbError else Ok (stated s (db s)));
          Ok (value, with_cache s (cset (mCache s) key value))
      end
  end.
(** getStr, Configuration.cpp:713-724 *)
Definition getStr (fuel : nat) (E : env) (s : st) (key : list Z) : res (option (list Z) * st) :=
  do (v, s) <- lookup_ fuel E s key;
  match v with Some v => Ok (Some v, s) | None => Ok (None, say s 7 (Missing key)) end.
(** set, Configuration.cpp:892-907 *)
Definition set (fuel : nat) (E : env) (s : st) (key value : list Z) : res st :=
  let cmd := set_cmd (mSchema E) key value in
  let (success, r) := command config_table (up E (stmts s)) (db s) cmd in
  do s <- (if refused E s cmd then record_ fuel E (stated s r) 3 DbError else Ok (stated s r));
  Ok (if success then with_cache s (cset (mCache s) key (Some value)) else s).
(** lookupLevel2, Logger.cpp:98-110 *)
Definition lookupLevel2 (fuel : nat) (E : env) (s : st) (key keyVal : list Z) : res (Z * st) :=
  let level := LoggerModel.levelStringToInt keyVal in
  if level =? -1 then
    let defaultLevel := match mSchema E (lit "Log.Level") with Some (d, _) => d | None => [] end in
    let level := LoggerModel.levelStringToInt defaultLevel in
    do s <- record_ fuel E s 2 (BadLevel key keyVal);
    do s <- set fuel E s key defaultLevel;
    Ok (level, s)
  else Ok (level, s).
(** lookupLevel, Logger.cpp:112-116; [None]: the exception goes on. *)
Definition lookupLevel (fuel : nat) (E : env) (s : st) (key : list Z) : res (option Z * st) :=
  do (v, s) <- getStr fuel E s key;
  match v with Some v => do (l, s) <- lookupLevel2 fuel E s key v; Ok (Some l, s) | None => Ok (None, s) end.
(** getLoggingLevel, Logger.cpp:119-138 *)
Definition getLoggingLevel (fuel : nat) (E : env) (s : st) (filename : list Z) : res (option Z * st) :=
  let keyName := lit "Log.Level." ++ filename in
  do (v, s) <- lookup_ fuel E s keyName;                      (* defines, Configuration.cpp:344-354 *)
  match v with
  | None => lookupLevel fuel E s (lit "Log.Level")
  | Some _ =>
      do (v, s) <- getStr fuel E s keyName;
      match v with
      | None => Ok (None, s)
      | Some [] => lookupLevel fuel E s (lit "Log.Level")
      | Some v => do (l, s) <- lookupLevel2 fuel E s keyName v; Ok (Some l, s)
      end
  end.
(** gGetLoggingLevel, Logger.cpp:141-178 *)
Definition gGetLoggingLevel (fuel : nat) (E : env) (s : st) (filename : list Z) : res (option Z * st) :=
  let key := computeHash filename in
  let s := if 1000 <? sCacheCount s then with_levels s [] 0 else s in
  let hit := LoggerModel.cfind (sLogCache s) key in
  let s := with_levels s (sLogCache s) (sCacheCount s + 1) in
  match hit with
  | Some level => Ok (Some level, s)
  | None =>
      do (l, s) <- getLoggingLevel fuel E s filename;
      match l with
      | Some level => Ok (Some level, with_levels s (LoggerModel.cinsert (sLogCache s) key level) (sCacheCount s))
      | None => Ok (None, s)
      end
  end.
(** LOG(level), Logger.h:70-79, in a file; [ndebug]: compiled with NDEBUG.  False: an exception leaves it. *)
Definition log (fuel : nat) (E : env) (ndebug : bool) (s : st) (file : list Z) (level : Z) : res (bool * st) :=
  if ndebug && (level =? 7) then Ok (true, s)
  else
    do (l, s) <- gGetLoggingLevel fuel E s file;
    match l with
    | None => Ok (false, s)
    | Some l => if level <=? l then do s <- record_ fuel E s level (Own file level); Ok (true, s) else Ok (true, s)
    end.
(** Statements one after the other, each in a file and with a level; an exception ends only its own (Logger.cpp:97-238). *)
Fixpoint logs (fuel : nat) (E : env) (ndebug : bool) (s : st) (l : list (list Z * Z)) : res (list bool * st) :=
  match l with
  | [] => Ok ([], s)
  | (f, level) :: l => do (b, s) <- log fuel E ndebug s f level; do (bs, s) <- logs fuel E ndebug s l; Ok (b :: bs, s)
  end.
