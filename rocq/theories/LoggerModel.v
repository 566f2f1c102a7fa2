(** Model of the level look-up, the level cache, the alarm list and the groups of the Logger
    (Logger.cpp, Logger.h).

    The configuration is what defines and getStr see of it: a map from keys to values.
    [dflt] is the default value of Log.Level in the schema.  Setting a value always
    succeeds.  Messages produced on the way are left out, except that [addAlarm] itself
    is modelled. *)
From Verif Require Import Base UtilsModel SqlModel KvModel.
Local Open Scope Z_scope.

(** gConfig as the Logger sees it (Logger.cpp:103, 106, 114, 129-130): values by key. *)
Definition config := list Z -> option (list Z).
(** gConfig.set, Logger.cpp:106 *)
Definition cset (c : config) (k v : list Z) : config := fun x => if weqb k x then Some v else c x.

(** levelNames, Logger.cpp:69-71 *)
Definition levelNames : list (list Z) :=
  [lit "EMERG"; lit "ALERT"; lit "CRIT"; lit "ERR"; lit "WARNING"; lit "NOTICE"; lit "INFO"; lit "DEBUG"].
(** The loop of levelStringToInt, Logger.cpp:82-84, from the largest index down. *)
Fixpoint level_loop (n : nat) (name : list Z) : option Z :=
  match n with
  | O => None
  | S i => if weqb name (nth i levelNames []) then Some (Z.of_nat i) else level_loop i name
  end.
(** levelStringToInt, Logger.cpp:79-95 *)
Definition levelStringToInt (name : list Z) : Z :=
  match level_loop 8 name with
  | Some i => i
  | None =>
      if weqb name (lit "INFORMATION") then 6
      else if weqb name (lit "WARN") then 4
      else if weqb name (lit "ERROR") then 3
      else if weqb name (lit "CRITICAL") then 2
      else if weqb name (lit "EMERGENCY") then 0
      else -1
  end.
(** lookupLevel2, Logger.cpp:98-110 *)
Definition lookupLevel2 (dflt : list Z) (c : config) (key keyVal : list Z) : Z * config :=
  let level := levelStringToInt keyVal in
  if level =? -1 then (levelStringToInt dflt, cset c key dflt) else (level, c).
(** lookupLevel, Logger.cpp:112-116: getStr throws for an undefined key. *)
Definition lookupLevel (dflt : list Z) (c : config) (key : list Z) : res (Z * config) :=
  match c key with
  | None => Abort
  | Some val => Ok (lookupLevel2 dflt c key val)
  end.
(** getLoggingLevel, Logger.cpp:119-138, for a file name. *)
Definition getLoggingLevel (dflt : list Z) (c : config) (filename : list Z) : res (Z * config) :=
  let keyName := lit "Log.Level." ++ filename in
  match c keyName with
  | Some keyVal =>
      if Nat.eqb (length keyVal) 0 then lookupLevel dflt c (lit "Log.Level")
      else Ok (lookupLevel2 dflt c keyName keyVal)
  | None => lookupLevel dflt c (lit "Log.Level")
  end.

(** ** gGetLoggingLevel, Logger.cpp:141-178 *)
Record lstate := LState { lcfg : config; lcache : list (Z * Z); lcount : Z }.
(** sLogCache.find, Logger.cpp:162 *)
Fixpoint cfind (m : list (Z * Z)) (k : Z) : option Z :=
  match m with [] => None | (x, v) :: t => if x =? k then Some v else cfind t k end.
(** std::map::insert keeps an entry that is there (Logger.cpp:175-177). *)
Definition cinsert (m : list (Z * Z)) (k v : Z) : list (Z * Z) := match cfind m k with Some _ => m | None => (k, v) :: m end.
(** Lines 154-169, under the lock: the level if it is cached. *)
Definition q_enter (s : lstate) (filename : list Z) : option Z * lstate :=
  let (cache, count) := if 1000 <? lcount s then ([], 0) else (lcache s, lcount s) in
  (cfind cache (computeHash filename), LState (lcfg s) cache (count + 1)).
(** Line 174, without the lock. *)
Definition q_lookup (dflt : list Z) (s : lstate) (filename : list Z) : res (Z * lstate) :=
  do (level, c) <- getLoggingLevel dflt (lcfg s) filename; Ok (level, LState c (lcache s) (lcount s)).
(** Lines 175-177, under the lock. *)
Definition q_insert (s : lstate) (filename : list Z) (level : Z) : lstate :=
  LState (lcfg s) (cinsert (lcache s) (computeHash filename) level) (lcount s).
(** A whole call.  A NULL name counts as an empty one (line 150). *)
Definition gGetLoggingLevel (dflt : list Z) (s : lstate) (filename : option (list Z)) : res (Z * lstate) :=
  let filename := match filename with Some f => f | None => [] end in
  let (hit, s) := q_enter s filename in
  match hit with
  | Some level => Ok (level, s)
  | None => do (level, s) <- q_lookup dflt s filename; Ok (level, q_insert s filename level)
  end.

(** ** Alarms *)
(** The loop of addAlarm, Logger.cpp:203. *)
Fixpoint pop_while (l : list (list Z)) (max : Z) : list (list Z) :=
  match l with
  | [] => []
  | _ :: t => if max <? Z.of_nat (length l) then pop_while t max else l
  end.
(** addAlarm, Logger.cpp:198-205; [limit] is the number under Log.Alarms.Max. *)
Definition addAlarm (l : list (list Z)) (s : list Z) (limit : Z) : list (list Z) := pop_while (l ++ [s]) (u32 limit).

(** ** One record *)
(** Logger.cpp:208-238 *)
Record logout := Out { alarms : list (list Z); errout : list Z; sysout : list (Z * list Z); fileout : list Z }.
(** Log::~Log, Logger.cpp:208-238, for a record that is not the dummy.  fputs and syslog stop at a NUL. *)
Definition endrecord (o : logout) (prio : Z) (text : list Z) (inited console file : bool) (limit : Z) : logout :=
  let o := if prio <=? 2 then Out (if inited then addAlarm (alarms o) (c_str text) limit else alarms o) (errout o ++ text ++ [10]) (sysout o) (fileout o) else o in
  let o := Out (alarms o) (errout o) (sysout o ++ [(prio, c_str text)]) (fileout o) in
  let nl := if match rev text with [] => true | c :: _ => negb (c =? 10) end then [10] else [] in
  Out (alarms o) (if console then errout o ++ text ++ nl else errout o) (sysout o) (if file then fileout o ++ c_str text ++ nl else fileout o).

(** ** Groups *)
(** mGroupNames, Logger.cpp:345 *)
Definition groupNames : list (list Z) := [lit "Control"; lit "SIP"; lit "GSM"; lit "GPRS"; lit "Layer2"; lit "SMS"].
(** getNonEmptyStrIfDefined, Logger.cpp:377-383, and its use in setAll (394-397): the text it
    returns a pointer to is gone when the caller reads it. *)
Definition group_level (c : config) (param : list Z) : res Z :=
  match c param with
  | None => Ok 0
  | Some [] => Ok 0
  | Some _ => UB
  end.
(** LogGroup::setAll, Logger.cpp:386-410: levels and watch levels. *)
Fixpoint setAll_ (c : config) (names : list (list Z)) : res (list (Z * Z)) :=
  match names with
  | [] => Ok []
  | g :: t =>
      do level <- group_level c (lit "Log.Group." ++ g);
      do watch <- group_level c (lit "Log.Watch." ++ g);
      do l <- setAll_ c t;
      Ok ((s8 level, s8 watch) :: l)
  end.
(** LogGroup::setAll, Logger.cpp:386-410, over all groups. *)
Definition setAll (c : config) : res (list (Z * Z)) := setAll_ c groupNames.
(** strcasecmp equality in the C locale (Logger.cpp:82-84 and 337) *)
Definition tolower (c : Z) : Z := if (65 <=? c) && (c <=? 90) then c + 32 else c.
(** strcasecmp(...) == 0, Logger.cpp:82-84 and 337. *)
Definition case_eq (a b : list Z) : bool := weqb (map tolower a) (map tolower b).
(** LogGroup::groupNameToIndex, Logger.cpp:334-340 *)
Fixpoint group_loop (names : list (list Z)) (name : list Z) (g : Z) : Z :=
  match names with
  | [] => g
  | n :: t => if case_eq n name then g else group_loop t name (g + 1)
  end.
(** groupNameToIndex, Logger.cpp:334-340 *)
Definition groupNameToIndex (name : list Z) : Z := group_loop groupNames name 0.
(** gCheckGroupLogLevel, Logger.h:185-189, on the stored levels *)
Definition checkGroupLogLevel (levels : list (Z * Z)) (group : nat) (level : Z) : res bool :=
  do _ <- assert_ (Nat.ltb group 6);
  do l <- rd levels group;
  Ok (level <=? fst l).
(** IS_LOG_LEVEL with a group, Logger.h:64 *)
Definition isLogLevel (dflt : list Z) (s : lstate) (levels : list (Z * Z)) (group : nat) (file : list Z) (level : Z) : res (bool * lstate) :=
  do g <- checkGroupLogLevel levels group level;
  if g then Ok (true, s)
  else do (l, s) <- gGetLoggingLevel dflt s (Some file); Ok (level <=? l, s).
