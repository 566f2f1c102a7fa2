(** Model of the initialisation of logging and of the log file (Logger.cpp, Logger.h), for one thread.

    Built on LoggerModel.v.  gConfig.set always succeeds.  The file is not touched by others while
    the program has it, writing to it succeeds.  The message of lookupLevel2, left out there, is
    modelled here.  openlog only passes on its arguments and is left out. *)
From Verif Require Import Base UtilsModel SqlModel KvModel ConfigModel IsoModel LoggerModel.
Local Open Scope Z_scope.

(** strncmp with the length of prefix, on a text (Logger.cpp:303) *)
Definition startsWith (b prefix : list Z) : bool := weqb (firstn (length prefix) b) prefix.

(** What does not change: the default of Log.Level in the schema, the time zone, the number under
    Log.Alarms.Max, the text in gCmdName (SchemaModel.v), the process, gLogToConsole (Logger.cpp:266-321). *)
Record env := Env { dflt : list Z; off : Z -> Z; limit : Z; cmd : list Z; pid : Z; console : bool }.
(** Levels and their cache, gMutexLogLevel, gPid, gLogToFile, the files, alarms, stderr, syslog (Logger.cpp:266-321) *)
Record world := World {
  lg : lstate; gMutexLogLevel : Z; gPid : Z; gLogToFile : option (list Z);
  fs : list Z -> option (list Z); walarms : list (list Z); werr : list Z; wsys : list (Z * list Z) }.
(** A file written (Logger.cpp:274-280 and 221-236). *)
Definition fset (f : list Z -> option (list Z)) (p c : list Z) : list Z -> option (list Z) := fun q => if weqb p q then Some c else f q.
(** Levels and their cache changed (Logger.cpp:141-178). *)
Definition with_lg (w : world) (s : lstate) : world := World s (gMutexLogLevel w) (gPid w) (gLogToFile w) (fs w) (walarms w) (werr w) (wsys w).

(** ** A record *)
(** Log::get, Logger.cpp:257-262 *)
Definition Log_get (prio : Z) : res (list Z) :=
  do _ <- assert_ (prio <? 8);
  if prio <? 0 then UB else do n <- rd levelNames (Z.to_nat prio); Ok (n ++ lit " ").
(** _LOG, Logger.h:56-58, and the end of the record; stamp is the thread and the time, place the
    file, the line and the function. *)
Definition log_ (E : env) (w : world) (prio : Z) (stamp place msg : list Z) : res world :=
  do name <- Log_get prio;
  let text := name ++ sprintf_ld (gPid w) ++ lit ":" ++ stamp ++ lit " " ++ place ++ lit ": " ++ msg in
  let before := match gLogToFile w with Some p => match fs w p with Some c => c | None => [] end | None => [] end in
  let o := endrecord (Out (walarms w) (werr w) (wsys w) before) prio text true (console E) (match gLogToFile w with Some _ => true | None => false end) (limit E) in
  Ok (World (lg w) (gMutexLogLevel w) (gPid w) (gLogToFile w)
        (match gLogToFile w with Some p => fset (fs w) p (fileout o) | None => fs w end) (alarms o) (errout o) (sysout o)).

(** ** The level of a file *)
(** The arguments of lookupLevel2, Logger.cpp:112-138 *)
Definition decide (c : config) (filename : list Z) : list Z * option (list Z) :=
  let keyName := lit "Log.Level." ++ filename in
  match c keyName with
  | Some (x :: v) => (keyName, Some (x :: v))
  | _ => (lit "Log.Level", c (lit "Log.Level"))
  end.
(** Logger.cpp:105 *)
Definition undefined_level (dflt key val : list Z) : list Z :=
  lit "undefined logging level (" ++ key ++ lit " = """ ++ val ++ lit """) defaulting to """ ++ dflt ++
  lit "."" Valid levels are: EMERG, ALERT, CRIT, ERR, WARNING, NOTICE, INFO or DEBUG".
(** gGetLoggingLevel, Logger.cpp:141-178, with the message of lookupLevel2 *)
Definition query (E : env) (w : world) (stamp filename : list Z) : res (Z * world) :=
  let (hit, s) := q_enter (lg w) filename in
  let w := with_lg w s in
  match hit with
  | Some level => Ok (level, w)
  | None =>
      do w <- (let (key, val) := decide (lcfg (lg w)) filename in
               match val with
               | None => Ok w                              (* getStr throws, in q_lookup *)
               | Some val =>
                   if levelStringToInt val =? -1 then log_ E w 2 stamp (lit "Logger.cpp:105:lookupLevel2") (undefined_level (dflt E) key val) else Ok w
               end);
      do (level, s) <- q_lookup (dflt E) (lg w) filename;
      Ok (level, with_lg w (q_insert s filename level))
  end.
(** LOG, Logger.h:71-77, without a group, in a program with debugging *)
Definition LOG (E : env) (w : world) (prio : Z) (filename stamp place msg : list Z) : res world :=
  do (level, w) <- query E w stamp filename;
  if prio <=? level then log_ E w prio stamp place msg else Ok w.

(** ** Initialisation *)
(** Logger.cpp:269-271 and 295-297 *)
Definition set_level (w : world) (level : option (list Z)) : world :=
  match level with
  | None => w
  | Some l => with_lg w (LState (cset (lcfg (lg w)) (lit "Log.Level") l) (lcache (lg w)) (lcount (lg w)))
  end.
(** Opening, Logger.cpp:274-280 and 306-312; opens: does fopen succeed *)
Definition open_file (E : env) (w : world) (name p : list Z) (opens : bool) (now : Z) : res world :=
  if opens then
    do when <- isoTime (off E) now true;
    Ok (World (lg w) (gMutexLogLevel w) (gPid w) (Some p) (fset (fs w) p (lit "Starting at " ++ when ++ [10])) (walarms w)
          (werr w ++ name ++ lit " logging to file: " ++ p ++ [10]) (wsys w))
  else Ok w.
(** Logger.cpp:287 and 320 *)
Definition mutex_level (E : env) (w : world) (stamp : list Z) : res world :=
  do (level, w) <- query E w stamp (lit "Mutex.cpp");
  Ok (World (lg w) level (gPid w) (gLogToFile w) (fs w) (walarms w) (werr w) (wsys w)).
(** gLogInitWithFile, Logger.cpp:266-288 *)
Definition gLogInitWithFile (E : env) (w : world) (name : list Z) (level path : option (list Z)) (opens : bool) (now : Z) (stamp : list Z) : res world :=
  let w := set_level w level in
  do w <- match gLogToFile w, path with
          | None, Some (c :: p) => open_file E w name (c :: p) opens now
          | _, _ => Ok w
          end;
  mutex_level E w stamp.
(** gLogInit, Logger.cpp:292-321 *)
Definition gLogInit (E : env) (w : world) (name : list Z) (level : option (list Z)) (opens : bool) (now : Z) (stamp : list Z) : res world :=
  let w := set_level w level in
  let w := World (lg w) (gMutexLogLevel w) (pid E) (gLogToFile w) (fs w) (walarms w) (werr w) (wsys w) in
  match lcfg (lg w) (lit "Log.File") with
  | None => Abort                                          (* getStr throws *)
  | Some str =>
      do w <- (if match gLogToFile w with None => true | Some _ => false end && negb (Nat.eqb (length str) 0) &&
                  (startsWith (cmd E) (lit "Open") || startsWith (cmd E) (lit "RMSC") || startsWith (cmd E) (lit "RangeFinderGW"))
               then (if (3 <? length str)%nat then open_file E w name str opens now else Ok w)
               else Ok w);
      mutex_level E w stamp
  end.

(** ** Histories *)
(** Logger.cpp:266-321 *)
Inductive event :=
| Init (name : list Z) (level : option (list Z)) (opens : bool) (now : Z) (stamp : list Z)
| InitWithFile (name : list Z) (level path : option (list Z)) (opens : bool) (now : Z) (stamp : list Z)
| Log (prio : Z) (filename stamp place msg : list Z)
| Set_ (key : list Z) (v : option (list Z)).
(** One call of gLogInit (Logger.cpp:292-321), gLogInitWithFile (266-288) or LOG (Logger.h:71-77), or a change
    of the configuration. *)
Definition step (E : env) (w : world) (e : event) : res world :=
  match e with
  | Init name level opens now stamp => gLogInit E w name level opens now stamp
  | InitWithFile name level path opens now stamp => gLogInitWithFile E w name level path opens now stamp
  | Log prio filename stamp place msg => LOG E w prio filename stamp place msg
  | Set_ key v => Ok (with_lg w (LState (fun x => if weqb key x then v else lcfg (lg w) x) (lcache (lg w)) (lcount (lg w))))
  end.
(** Calls one after the other (Logger.cpp:266-321). *)
Fixpoint run (E : env) (w : world) (l : list event) : res world :=
  match l with [] => Ok w | e :: l => do w <- step E w e; run E w l end.

(** ** Groups *)
(** LogGroup::LogGroupInit, Logger.cpp:347-366 *)
Definition LogGroupInit : res (list (Z * Z)) :=
  do _ <- assert_ (weqb (nth 0 groupNames []) (lit "Control"));
  do _ <- assert_ (weqb (nth 1 groupNames []) (lit "SIP"));
  do _ <- assert_ (weqb (nth 2 groupNames []) (lit "GSM"));
  do _ <- assert_ (weqb (nth 3 groupNames []) (lit "GPRS"));
  do _ <- assert_ (weqb (nth 4 groupNames []) (lit "Layer2"));
  do _ <- assert_ (Nat.eqb (length groupNames) 6);
  Ok (repeat (0, 0) 6).
