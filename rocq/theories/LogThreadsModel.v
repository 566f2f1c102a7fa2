(** Model of threads that finish log records and read the alarms at the same time (Logger.cpp:184-238), step
    by step.

    A step is what a thread does between two points where others may come in: taking and giving back
    alarmsLock, the lock of gConfig and gLogToLock, one change or reading of the list of alarms, the reading
    of the limit, one output.  A thread may be inside a call to gConfig, whose lock it holds, and finish
    records there (sqlite3util.cpp:62 does).  Mutexes are recursive (Threads.cpp:90-99).
    Simplified: gLogToConsole, gLogToFile and sLoggerInited do not change; an output operator writes its
    text at once; the loop of addAlarm, under the lock, is one step. *)
From Verif Require Import Base UtilsModel LoggerModel.
Local Open Scope Z_scope.

(** Level and text of a record (Logger.cpp:141-238). *)
Definition rec : Type := Z * list Z.
(** sLoggerInited, gLogToConsole, gLogToFile != NULL (Logger.cpp:141-238) *)
Record flags := Flags { inited : bool; console : bool; tofile : bool }.
(** Where a thread is, with line numbers of Logger.cpp (Logger.cpp:141-238). *)
Inductive place :=
| Idle
| ALock (r : rec)                     (* addAlarm, 200 *)
| Push (r : rec)                      (* 201 *)
| CLock (r : rec)                     (* 202, the beginning of getNum, Configuration.cpp:743 *)
| Limit (r : rec)                     (* lookup, Configuration.cpp:744 *)
| CUnlock (r : rec) (m : option Z)    (* the end of getNum; None: it throws *)
| Trim (r : rec) (m : Z)              (* 203 *)
| AUnlock (r : rec)                   (* 204 *)
| Echo (r : rec)                      (* cerr << text, 215 *)
| EchoNl (r : rec)                    (* << endl, 215 *)
| Syslog (r : rec)                    (* 219, and the condition in 221 *)
| LLock (r : rec)                     (* 224 *)
| Con (r : rec)                       (* 228 *)
| ConNl (r : rec)                     (* 229 *)
| File (r : rec)                      (* 232 *)
| FileNl (r : rec)                    (* 233 *)
| LUnlock (r : rec)                   (* 236 *)
| Conf                                (* at the beginning of a call to gConfig *)
| GLock                               (* gGetLoggerAlarms, 187 *)
| GCopy                               (* 188-192 *)
| GUnlock (xs : list (list Z)).       (* 193 *)
(** A thread: where it is, and whether it is inside a call to gConfig (as sqlite3util.cpp:62 is). *)
Record frame := Frame { pc : place; inconf : bool }.
(** A mutex: owner and depth, [None]: free.  alarmsLock (Logger.cpp:48), gLogToLock (75) and the lock of
    gConfig. *)
Definition mutex : Type := option (nat * nat).
(** The variables of Logger.cpp:48-49 and 73-75, what was written to stderr, syslog and the file, the copies
    returned by gGetLoggerAlarms, the locks, the threads. *)
Record sys := Sys { limit : option Z; alarmlist : list (list Z); err : list Z; syslogged : list (nat * rec); file : list Z;
  copies : list (nat * list (list Z)); lkA : mutex; lkC : mutex; lkL : mutex; frames : list frame }.
(** What happens next: a record ends (Logger.cpp:208), a call to gConfig, gGetLoggerAlarms (185), a step of a
    thread, a change of the limit. *)
Inductive label :=
| LLog (t : nat) (r : rec)            (* ~Log, outside gConfig *)
| LConfLog (t : nat) (r : rec)        (* ~Log, inside gConfig *)
| LConf (t : nat)                     (* a call to gConfig *)
| LConfEnd (t : nat)
| LAlarms (t : nat)                   (* gGetLoggerAlarms() *)
| LLimit (m : option Z)               (* Log.Alarms.Max is changed, or removed and without default *)
| LStep (t : nat).

(** Mutex::lock and unlock; [None]: the thread waits (Threads.cpp:159-189). *)
Definition take (k : mutex) (t : nat) : option mutex :=
  match k with
  | None => Some (Some (t, 1%nat))
  | Some (u, n) => if (u =? t)%nat then Some (Some (t, S n)) else None
  end.
(** Mutex::unlock, Threads.cpp:183-189; without owner undefined. *)
Definition give (k : mutex) (t : nat) : res mutex :=
  match k with
  | Some (u, S n) => if (u =? t)%nat then Ok (match n with O => None | _ => Some (t, n) end) else UB
  | _ => UB
  end.
(** Helper: the thread is at another place (Logger.cpp:141-238). *)
Definition put (s : sys) (t : nat) (f : frame) : sys :=
  Sys (limit s) (alarmlist s) (err s) (syslogged s) (file s) (copies s) (lkA s) (lkC s) (lkL s) (upd (frames s) t f).
(** Helper: alarmsList (Logger.cpp:49) changed. *)
Definition with_alarms (s : sys) (x : list (list Z)) : sys := Sys (limit s) x (err s) (syslogged s) (file s) (copies s) (lkA s) (lkC s) (lkL s) (frames s).
(** Helper: what stderr has received (Logger.cpp:141-238). *)
Definition with_err (s : sys) (x : list Z) : sys := Sys (limit s) (alarmlist s) x (syslogged s) (file s) (copies s) (lkA s) (lkC s) (lkL s) (frames s).
(** Helper: what syslog has received (Logger.cpp:141-238). *)
Definition with_syslog (s : sys) (x : list (nat * rec)) : sys := Sys (limit s) (alarmlist s) (err s) x (file s) (copies s) (lkA s) (lkC s) (lkL s) (frames s).
(** Helper: what the file has received (Logger.cpp:141-238). *)
Definition with_file (s : sys) (x : list Z) : sys := Sys (limit s) (alarmlist s) (err s) (syslogged s) x (copies s) (lkA s) (lkC s) (lkL s) (frames s).
(** Helper: the copies returned by gGetLoggerAlarms (Logger.cpp:185). *)
Definition with_copies (s : sys) (x : list (nat * list (list Z))) : sys := Sys (limit s) (alarmlist s) (err s) (syslogged s) (file s) x (lkA s) (lkC s) (lkL s) (frames s).
(** Helper: alarmsLock (Logger.cpp:48) changed. *)
Definition with_A (s : sys) (k : mutex) : sys := Sys (limit s) (alarmlist s) (err s) (syslogged s) (file s) (copies s) k (lkC s) (lkL s) (frames s).
(** Helper: the lock of gConfig changed (Logger.cpp:141-238). *)
Definition with_C (s : sys) (k : mutex) : sys := Sys (limit s) (alarmlist s) (err s) (syslogged s) (file s) (copies s) (lkA s) k (lkL s) (frames s).
(** Helper: gLogToLock (Logger.cpp:75) changed. *)
Definition with_L (s : sys) (k : mutex) : sys := Sys (limit s) (alarmlist s) (err s) (syslogged s) (file s) (copies s) (lkA s) (lkC s) k (frames s).
(** Helper: a step that needs a lock; [Diverge]: it cannot be taken now (not in the source). *)
Definition waits (k : option mutex) (f : mutex -> sys) : res sys := match k with Some k => Ok (f k) | None => Diverge end.
(** neednl, Logger.cpp:222-223 *)
Definition nl (text : list Z) : list Z := if match rev text with [] => true | c :: _ => negb (c =? 10) end then [10] else [].
(** The beginning of ~Log, Logger.cpp:213-214. *)
Definition first (F : flags) (r : rec) : place := if fst r <=? 2 then if inited F then ALock r else Echo r else Syslog r.

(** One step of a thread: gGetLoggerAlarms, addAlarm and ~Log, Logger.cpp:185-238. *)
Definition micro (F : flags) (s : sys) (t : nat) : res sys :=
  match nth_error (frames s) t with
  | None => Diverge
  | Some (Frame p c) =>
      match p with
      | Idle => Diverge
      | ALock r => waits (take (lkA s) t) (fun k => put (with_A s k) t (Frame (Push r) c))
      | Push r => Ok (put (with_alarms s (alarmlist s ++ [c_str (snd r)])) t (Frame (CLock r) c))
      | CLock r => waits (take (lkC s) t) (fun k => put (with_C s k) t (Frame (Limit r) c))
      | Limit r => Ok (put s t (Frame (CUnlock r (limit s)) c))
      | CUnlock r m => do k <- give (lkC s) t; Ok (put (with_C s k) t (Frame (match m with Some m => Trim r m | None => Idle end) c))
      | Trim r m => Ok (put (with_alarms s (pop_while (alarmlist s) (u32 m))) t (Frame (AUnlock r) c))
      | AUnlock r => do k <- give (lkA s) t; Ok (put (with_A s k) t (Frame (Echo r) c))
      | Echo r => Ok (put (with_err s (err s ++ snd r)) t (Frame (EchoNl r) c))
      | EchoNl r => Ok (put (with_err s (err s ++ [10])) t (Frame (Syslog r) c))
      | Syslog r => Ok (put (with_syslog s (syslogged s ++ [(t, (fst r, c_str (snd r)))])) t (Frame (if console F || tofile F then LLock r else Idle) c))
      | LLock r => waits (take (lkL s) t) (fun k => put (with_L s k) t (Frame (if console F then Con r else File r) c))
      | Con r => Ok (put (with_err s (err s ++ snd r)) t (Frame (ConNl r) c))
      | ConNl r => Ok (put (with_err s (err s ++ nl (snd r))) t (Frame (if tofile F then File r else LUnlock r) c))
      | File r => Ok (put (with_file s (file s ++ c_str (snd r))) t (Frame (FileNl r) c))
      | FileNl r => Ok (put (with_file s (file s ++ nl (snd r))) t (Frame (LUnlock r) c))
      | LUnlock r => do k <- give (lkL s) t; Ok (put (with_L s k) t (Frame Idle c))
      | Conf => waits (take (lkC s) t) (fun k => put (with_C s k) t (Frame Idle true))
      | GLock => waits (take (lkA s) t) (fun k => put (with_A s k) t (Frame GCopy c))
      | GCopy => Ok (put s t (Frame (GUnlock (alarmlist s)) c))
      | GUnlock xs => do k <- give (lkA s) t; Ok (put (with_copies (with_A s k) (copies s ++ [(t, xs)])) t (Frame Idle c))
      end
  end.
(** One step of the system (Logger.cpp:141-238). *)
Definition step (F : flags) (s : sys) (l : label) : res sys :=
  match l with
  | LLog t r => match nth_error (frames s) t with Some (Frame Idle false) => Ok (put s t (Frame (first F r) false)) | _ => Diverge end
  | LConfLog t r => match nth_error (frames s) t with Some (Frame Idle true) => Ok (put s t (Frame (first F r) true)) | _ => Diverge end
  | LConf t => match nth_error (frames s) t with Some (Frame Idle false) => Ok (put s t (Frame Conf false)) | _ => Diverge end
  | LConfEnd t => match nth_error (frames s) t with Some (Frame Idle true) => do k <- give (lkC s) t; Ok (put (with_C s k) t (Frame Idle false)) | _ => Diverge end
  | LAlarms t => match nth_error (frames s) t with Some (Frame Idle false) => Ok (put s t (Frame GLock false)) | _ => Diverge end
  | LLimit m => Ok (Sys m (alarmlist s) (err s) (syslogged s) (file s) (copies s) (lkA s) (lkC s) (lkL s) (frames s))
  | LStep t => micro F s t
  end.
(** The steps of an execution (Logger.cpp:141-238). *)
Fixpoint runs (F : flags) (s : sys) (l : list label) : res sys :=
  match l with
  | [] => Ok s
  | a :: l => do s <- step F s a; runs F s l
  end.
(** [n] threads; the limit is [m] (Logger.cpp:141-238). *)
Definition start (n : nat) (m : option Z) : sys := Sys m [] [] [] [] [] None None None (repeat (Frame Idle false) n).
