(** Model of log records made while static objects are constructed and destroyed (Logger.cpp:47-76, 141-178, 198-205, 208-238, 292-321,
    Logger.h:56-77): the objects of Logger.cpp, gConfig and objects of the program are constructed in some order and destroyed in the
    reverse order; the static variables of gGetLoggingLevel are constructed when it is first called.

    Simplified: the level of a file is a fixed valid number (no lookupLevel2 default, 102-107); sLogCache is never flushed (157-160); the list
    of alarms is not cut (203); no log group (Logger.h:64), no NDEBUG (73), no output to the console (225-230); the echo to cerr (215) is
    left out; gConfig is one object that works as soon as it is constructed; of gLogInit only that it uses gConfig, may open the log file
    and asks for the level of one file, called 0; one thread. *)
From Verif Require Import Base.
Local Open Scope nat_scope.

(** alarmsLock, alarmsList, sCheckloggerInitStatus, gLogToLock (Logger.cpp:48, 49, 62, 75), gConfig (43), the static variables of
    gGetLoggingLevel (145-146), static objects of the program. *)
Inductive obj := ALock | AList | Flag | ToLock | Cfg | Cache | U (n : nat).
(** _LOG (no file) or LOG of a file with priority and number (Logger.h:56-77); gLogInit, which opens the file or not (Logger.cpp:292-321). *)
Inductive rec := R (look : option nat) (prio id : nat) | Init (tofile : bool).
(** A program: its static objects in the order in which they are constructed, what their constructors, main and their destructors log,
    the levels of the files (not in the source). *)
Record prog := Prog { order : list obj; ctor : nat -> list rec; main_ : list rec; dtor : nat -> list rec; lv : nat -> nat }.
(** The static variables of gGetLoggingLevel: not yet constructed, there, destroyed (Logger.cpp:145-146). *)
Inductive life := Not | Alive | Dead.
(** The objects that are there, the latest first; sLoggerInited; is there a log file; the static variables and the files in sLogCache; the
    alarms and the records given to syslog (Logger.cpp:49, 61, 74, 145-146, 219). *)
Record state := State { stack : list obj; inited : bool; tofile : bool; cache : life; cached : list nat; alarms : list nat; sys : list nat }.
(** Are they the same object? (not in the source) *)
Definition obj_eqb (a b : obj) : bool :=
  match a, b with ALock, ALock | AList, AList | Flag, Flag | ToLock, ToLock | Cfg, Cfg | Cache, Cache => true | U n, U m => n =? m | _, _ => false end.
(** Use of an object, undefined unless it is there (not in the source). *)
Definition use (s : state) (o : obj) : res unit := if existsb (obj_eqb o) (stack s) then Ok tt else UB.
(** gGetLoggingLevel, Logger.cpp:141-178 *)
Definition look (s : state) (f : nat) : res state :=
  do s <- match cache s with
          | Not => Ok (State (Cache :: stack s) (inited s) (tofile s) Alive (cached s) (alarms s) (sys s))
          | Alive => Ok s
          | Dead => UB
          end;
  if existsb (Nat.eqb f) (cached s) then Ok s
  else do _ <- use s Cfg; Ok (State (stack s) (inited s) (tofile s) (cache s) (f :: cached s) (alarms s) (sys s)).
(** addAlarm, Logger.cpp:198-205 *)
Definition add_alarm (s : state) (id : nat) : res state :=
  do _ <- use s ALock; do _ <- use s AList; do _ <- use s Cfg; Ok (State (stack s) (inited s) (tofile s) (cache s) (cached s) (alarms s ++ [id]) (sys s)).
(** Log::~Log, Logger.cpp:208-238 *)
Definition emit (s : state) (p id : nat) : res state :=
  do s <- if p <=? 2 then (if inited s then add_alarm s id else Ok s) else Ok s;
  let s := State (stack s) (inited s) (tofile s) (cache s) (cached s) (alarms s) (sys s ++ [id]) in
  if tofile s then do _ <- use s ToLock; Ok s else Ok s.
(** LOG, _LOG and gLogInit, Logger.h:56-77, Logger.cpp:292-321 *)
Definition log1 (P : prog) (s : state) (r : rec) : res state :=
  match r with
  | R None p id => emit s p id
  | R (Some f) p id => do s <- look s f; if p <=? lv P f then emit s p id else Ok s
  | Init b => do _ <- use s Cfg; look (State (stack s) (inited s) (tofile s || b) (cache s) (cached s) (alarms s) (sys s)) 0
  end.
(** Several records (not in the source). *)
Fixpoint logs (P : prog) (s : state) (l : list rec) : res state := match l with [] => Ok s | r :: l => do s <- log1 P s r; logs P s l end.
(** An object more is there (not in the source). *)
Definition push (s : state) (o : obj) (b : bool) : state := State (o :: stack s) b (tofile s) (cache s) (cached s) (alarms s) (sys s).
(** Construction of a static object; that of sCheckloggerInitStatus sets sLoggerInited (Logger.cpp:62-64). *)
Definition build (P : prog) (s : state) (o : obj) : res state :=
  match o with
  | U n => do s <- logs P s (ctor P n); Ok (push s (U n) (inited s))
  | Flag => Ok (push s Flag true)
  | Cache => Ok s
  | _ => Ok (push s o (inited s))
  end.
(** Construction of the static objects before main (Logger.cpp:56-64). *)
Fixpoint builds (P : prog) (s : state) (l : list obj) : res state := match l with [] => Ok s | o :: l => do s <- build P s o; builds P s l end.
(** Destruction after main, in the reverse order (not in the source); sLoggerInited stays (Logger.cpp:61-64). *)
Fixpoint unwind (fuel : nat) (P : prog) (s : state) : res state :=
  match fuel with
  | O => match stack s with [] => Ok s | _ => Diverge end
  | S fuel =>
      match stack s with
      | [] => Ok s
      | o :: l =>
          let s := State l (inited s) (tofile s) (match o with Cache => Dead | _ => cache s end) (cached s) (alarms s) (sys s) in
          match o with U n => do s <- logs P s (dtor P n); unwind fuel P s | _ => unwind fuel P s end
      end
  end.
(** The start of the process (Logger.cpp:61, 74). *)
Definition start : state := State [] false false Not [] [] [].
(** A whole program (not in the source); one step more than objects, as the static variables may be constructed at the end. *)
Definition run (P : prog) : res state := do s <- builds P start (order P); do s <- logs P s (main_ P); unwind (S (length (stack s))) P s.
