(** Model of UnixSignal with threads (UnixSignal.cpp:40-108, 130-141), step by step.

    Threads call Register; a signal may be delivered to any thread between any two steps, also while it
    registers or handles another signal; the handler then runs on top of what the thread was doing.  While a
    handler for a signal runs in a thread that signal is blocked there (signal of the C library).  The locks
    are the recursive ones of class Mutex.  The handlers registered return and do nothing to the lists (C58
    has those that do).  Insertion in a std::list is two steps, with the list unusable in between.
    Messages and files written are left out, except for the name of the core file. *)
From Verif Require Import Base UtilsModel PrintfModel SignalModel.
Local Open Scope Z_scope.

(** Where Register is: UnixSignal.cpp:137, 138, 139 (two steps) and 140. *)
Inductive rpc := RLock | RSignal | RInsert | RLink | RUnlock.
(** Where a handler is: UnixSignal.cpp:42, 100, 101-105, 50 (with 106) and 52. *)
Inductive hpc := HIgnore | HLock | HCall (i : nat) | HDefault | HRaise.
(** What a thread is doing; a delivery of a signal is known by the number of its step (UnixSignal.cpp:40-141). *)
Inductive frame := Reg (h sig : Z) (pc : rpc) | Han (sig : Z) (pc : hpc) (id : nat).
(** The lists and locks of UnixSignal.h:31-33, dispositions, what each thread is doing, the calls of handlers,
    whether the process was killed. *)
Record world := World {
  lists : Z -> list Z; torn : Z -> bool; dispo : Z -> disposition; owner : Z -> option (nat * nat);
  stack : nat -> list frame; count : nat; calls : list (nat * Z); dead : bool }.
(** A thread begins Register, takes a step, or a signal is delivered to it (UnixSignal.cpp:40-141). *)
Inductive label := LReg (i : nat) (h sig : Z) | LStep (i : nat) | LDeliver (i : nat) (sig : Z).

(** The default action ends the process, except for CHLD, CONT, URG, WINCH and the signals that stop it (signal(7), for UnixSignal.cpp:48-52). *)
Definition terminates (sig : Z) : bool := negb (existsb (Z.eqb sig) [17; 18; 19; 20; 21; 22; 23; 28]).
(** Helper: change of a function of a number (not in the source). *)
Definition setz {A} (f : Z -> A) (k : Z) (x : A) : Z -> A := fun y => if y =? k then x else f y.
(** Helper: change of a function of a thread (not in the source). *)
Definition setn {A} (f : nat -> A) (i : nat) (x : A) : nat -> A := fun j => if (j =? i)%nat then x else f j.
(** Helper: a thread is doing something else; the step is counted (UnixSignal.cpp:40-141). *)
Definition to (w : world) (i : nat) (s : list frame) : world :=
  World (lists w) (torn w) (dispo w) (owner w) (setn (stack w) i s) (S (count w)) (calls w) (dead w).
(** Helper: mListHandlers[sig] (UnixSignal.cpp:139) changed; [t]: half done. *)
Definition with_list (w : world) (sig : Z) (l : list Z) (t : bool) : world :=
  World (setz (lists w) sig l) (setz (torn w) sig t) (dispo w) (owner w) (stack w) (count w) (calls w) (dead w).
(** signal(sig, ...), UnixSignal.cpp:42, 50 and 138. *)
Definition with_dispo (w : world) (sig : Z) (d : disposition) : world :=
  World (lists w) (torn w) (signal_ (dispo w) sig d) (owner w) (stack w) (count w) (calls w) (dead w).
(** Helper: mLock[sig] changed (UnixSignal.cpp:40-141). *)
Definition with_owner (w : world) (sig : Z) (o : option (nat * nat)) : world :=
  World (lists w) (torn w) (dispo w) (setz (owner w) sig o) (stack w) (count w) (calls w) (dead w).
(** Helper: a handler is called, UnixSignal.cpp:104. *)
Definition called (w : world) (id : nat) (h : Z) : world :=
  World (lists w) (torn w) (dispo w) (owner w) (stack w) (count w) (calls w ++ [(id, h)]) (dead w).
(** Helper: the process ends (UnixSignal.cpp:40-141). *)
Definition kill (w : world) : world := World (lists w) (torn w) (dispo w) (owner w) (stack w) (count w) (calls w) true.

(** Mutex::lock and unlock, Threads.cpp:89-97, 159-187: [None] if another thread has it. *)
Definition lock (w : world) (i : nat) (sig : Z) : option world :=
  match owner w sig with
  | None => Some (with_owner w sig (Some (i, 1%nat)))
  | Some (j, n) => if (j =? i)%nat then Some (with_owner w sig (Some (i, S n))) else None
  end.
(** Mutex::unlock, as at UnixSignal.cpp:106 and 140. *)
Definition unlock (w : world) (sig : Z) : world :=
  match owner w sig with
  | Some (j, S (S n)) => with_owner w sig (Some (j, S n))
  | _ => with_owner w sig None
  end.
(** kill(getpid(),sig), UnixSignal.cpp:52: a signal that is caught is delivered in a step of its own. *)
Definition raise (w : world) (sig : Z) : world :=
  match dispo w sig with Dfl => if terminates sig then kill w else w | _ => w end.
(** UnixSignal::Register (UnixSignal.cpp:130-141), _sigHandler (40-53) and the loop of UnixSignal::Handler
    (100-106): one step of thread [i]; [Diverge]: it has to wait or nothing to do. *)
Definition micro (w : world) (i : nat) : res world :=
  match stack w i with
  | [] => Diverge
  | Reg h sig pc :: below =>
      match pc with
      | RLock => match lock w i sig with Some w => Ok (to w i (Reg h sig RSignal :: below)) | None => Diverge end
      | RSignal => Ok (to (with_dispo w sig Ours) i (Reg h sig RInsert :: below))
      | RInsert => if torn w sig then UB else Ok (to (with_list w sig (lists w sig) true) i (Reg h sig RLink :: below))
      | RLink => Ok (to (with_list w sig (lists w sig ++ [h]) false) i (Reg h sig RUnlock :: below))
      | RUnlock => Ok (to (unlock w sig) i below)
      end
  | Han sig pc id :: below =>
      match pc with
      | HIgnore => Ok (to (with_dispo w sig Ign) i (Han sig HLock id :: below))
      | HLock => match lock w i sig with Some w => Ok (to w i (Han sig (HCall 0) id :: below)) | None => Diverge end
      | HCall k =>
          if torn w sig then UB
          else match nth_error (lists w sig) k with
               | Some h => Ok (to (called w id h) i (Han sig (HCall (S k)) id :: below))
               | None => Ok (to (unlock w sig) i (Han sig HDefault id :: below))
               end
      | HDefault => Ok (to (with_dispo w sig Dfl) i (Han sig HRaise id :: below))
      | HRaise => Ok (to (raise w sig) i below)
      end
  end.
(** Helper: is the thread in a handler for the signal?  Then the signal is blocked (UnixSignal.cpp:40-141). *)
Definition handling (sig : Z) (f : frame) : bool := match f with Han s _ _ => s =? sig | Reg _ _ _ => false end.
(** One step of the system (UnixSignal.cpp:40-141). *)
Definition step (w : world) (l : label) : res world :=
  if dead w then Diverge
  else match l with
  | LReg i h sig =>
      match stack w i with
      | [] => if (sig <=? 0) || (C_NSIG <=? sig) then Ok (to w i []) else Ok (to w i [Reg h sig RLock])
      | _ => Diverge
      end
  | LStep i => micro w i
  | LDeliver i sig =>
      match dispo w sig with
      | Ours => if existsb (handling sig) (stack w i) then Diverge else Ok (to w i (Han sig HIgnore (count w) :: stack w i))
      | Ign => Ok (to w i (stack w i))
      | Dfl => Ok (to (raise w sig) i (stack w i))
      end
  end.
(** The steps of an execution (UnixSignal.cpp:40-141). *)
Fixpoint runs (w : world) (l : list label) : res world :=
  match l with
  | [] => Ok w
  | a :: l => do w <- step w a; runs w l
  end.
(** UnixSignal::UnixSignal, UnixSignal.cpp:110-119 *)
Definition fresh : world := World (fun _ => []) (fun _ => false) (fun _ => Dfl) (fun _ => None) (fun _ => []) 0 [] false.

(** The name of the core file, UnixSignal.cpp:62-68; BUFSIZ is 8192 and snprintf leaves room for the NUL. *)
Definition core_name (mAddPid : bool) (mCoreFile : list Z) (pid : Z) : res (list Z) :=
  do text <- (if mAddPid then denotes (lit "%s.%d") [AStr (Some mCoreFile); AInt pid] else denotes (lit "%s") [AStr (Some mCoreFile)]);
  Ok (firstn (Z.to_nat 8190) text).
