(** Model of UnixSignal objects from construction to destruction (UnixSignal.cpp:40-158, UnixSignal.h), in a
    program that also calls signal itself.

    A program makes UnixSignal objects; number 0 is the global gSigVec, to which _sigHandler passes
    every signal.  One thread; signals are delivered between calls (C96 has threads, C58 has handlers that
    register).  Handlers are addresses and return.  The messages of Handler are left out, and so is the
    text of the command that collects files; whether it is run, and for which file, is kept. *)
From Verif Require Import Base UtilsModel ConfigModel PrintfModel SignalModel SigThreadsModel.
Local Open Scope Z_scope.

(** A disposition: default, ignored, _sigHandler, or a function of the program (UnixSignal.cpp:40-160). *)
Inductive dispo := Default | Ignored | Vector | Own (f : Z).
(** The members of UnixSignal, UnixSignal.h:31-37.  mSaveFiles is not set by the constructor: None if the
    memory was not zeroed either. *)
Record usig := USig { mListHandlers : Z -> list Z; mAddPid : bool; mCoreFile : list Z; mSaveFiles : option bool; mTarFile : list Z }.
(** Objects made so far, None after their destruction; dispositions; has the process ended? (UnixSignal.cpp:40-160) *)
Record prog := Prog { objs : list (option usig); acts : Z -> dispo; over : bool }.
(** UnixSignal::UnixSignal, UnixSignal.cpp:110-119; gSigVec, a global variable, has zeroed memory. *)
Definition fresh (zeroed : bool) : usig := USig (fun _ => []) false (lit "core") (if zeroed then Some false else None) [].
(** The process when main starts: gSigVec made, dispositions as inherited (UnixSignal.cpp:110-119). *)
Definition start (inherited : Z -> dispo) : prog := Prog [Some (fresh true)] inherited false.
(** signal(2) *)
Definition sets (a : Z -> dispo) (sig : Z) (d : dispo) : Z -> dispo :=
  if (1 <=? sig) && (sig <=? 64) && negb (sig =? 9) && negb (sig =? 19) then fun y => if y =? sig then d else a y else a.
(** What the program calls (UnixSignal.cpp:55-160, UnixSignal.h:38-48), and signals that come. *)
Inductive op :=
| New                                          (* UnixSignal x; on the stack or by new *)
| Delete (i : nat)                             (* ~UnixSignal *)
| Register (i : nat) (h sig : Z)
| CoreName (i : nat) (name : list Z) (pid : bool)
| TarName (i : nat) (name : list Z) (save : bool)
| Dump (i : nat)
| Handle (i : nat) (sig : Z)                   (* Handler called by the program *)
| Program (sig : Z) (d : dispo)                (* signal called by the program *)
| Deliver (sig : Z).                           (* a signal comes *)
(** What is to be seen: an object, nothing, a text printed, the core file, the archive and the handlers called by Handler (and
    whether the process then ends), a function of the program called, the end of the process (UnixSignal.cpp:40-160). *)
Inductive obs := Made (i : nat) | Nothing | Printed (s : list Z) | Handled (core tar : option (list Z)) (calls : list Z) (ends : bool) | Called (f : Z) | Ends.
(** printf("%p") of an address other than NULL (UnixSignal.cpp:152-154). *)
Definition pointer (h : Z) : list Z := lit "0x" ++ hex_digits 16 h.
(** The line of a signal, UnixSignal.cpp:150-156 *)
Fixpoint dump_list (first : bool) (l : list Z) : list Z :=
  match l with [] => [10] | h :: t => (if first then [] else lit ", ") ++ lit "0x" ++ pointer h ++ dump_list false t end.
(** The line of a signal with handlers, UnixSignal.cpp:147-157. *)
Definition dump_line (o : usig) (sig : Z) : list Z :=
  match mListHandlers o sig with
  | [] => []
  | l => lit "Signal vectors for signal " ++ dec_digits 20 sig ++ lit ": " ++ dump_list true l
  end.
(** UnixSignal::Dump, UnixSignal.cpp:143-160 *)
Fixpoint dump (n : nat) (o : usig) (sig : Z) : list Z :=
  match n with O => [] | S m => dump_line o sig ++ dump m o (sig + 1) end.
(** UnixSignal::~UnixSignal, UnixSignal.cpp:121-128 *)
Fixpoint reset (n : nat) (a : Z -> dispo) (i : Z) : Z -> dispo :=
  match n with O => a | S m => reset m (sets a i Default) (i + 1) end.
(** UnixSignal::Handler, UnixSignal.cpp:55-108 *)
Definition handle (pid : Z) (o : usig) (sig : Z) : res (option (list Z) * option (list Z) * list Z) :=
  if (sig <? 0) || (C_NSIG <=? sig) then UB
  else
    do (core, tar) <-
      (if core_case sig then
         do name <- core_name (mAddPid o) (mCoreFile o) pid;
         match mSaveFiles o with
         | None => UB
         | Some b => Ok (Some name, if b then Some (mTarFile o) else None)
         end
       else Ok (None, None));
    Ok (core, tar, mListHandlers o sig).
(** One object changed; not in the source. *)
Fixpoint replace (l : list (option usig)) (i : nat) (x : option usig) : list (option usig) :=
  match l, i with [], _ => [] | _ :: t, O => x :: t | y :: t, S j => y :: replace t j x end.
(** One object changed, if it exists (UnixSignal.cpp:40-160). *)
Definition change (p : prog) (i : nat) (f : usig -> usig) : prog :=
  match nth_error (objs p) i with Some (Some o) => Prog (replace (objs p) i (Some (f o))) (acts p) (over p) | _ => p end.
(** One call or signal.  [UB]: an object is used after its destruction, or mSaveFiles before it is set.  [Diverge]: no such object, or the process is over (UnixSignal.cpp:40-160). *)
Definition step (pid : Z) (p : prog) (e : op) : res (obs * prog) :=
  let obj i (k : usig -> res (obs * prog)) := match nth_error (objs p) i with Some (Some o) => k o | Some None => UB | None => Diverge end in
  let set_act sig d := Prog (objs p) (sets (acts p) sig d) (over p) in
  if over p then Diverge else
  match e with
  | New => Ok (Made (length (objs p)), Prog (objs p ++ [Some (fresh false)]) (acts p) (over p))
  | Delete i => obj i (fun _ => Ok (Nothing, Prog (replace (objs p) i None) (reset (Z.to_nat C_NSIG) (acts p) 0) (over p)))
  | Register i h sig =>                        (* UnixSignal.cpp:130-141 *)
      obj i (fun o => Ok (Nothing,
        if (sig <=? 0) || (C_NSIG <=? sig) then p
        else change (set_act sig Vector) i (fun o => USig (fun y => if y =? sig then mListHandlers o y ++ [h] else mListHandlers o y) (mAddPid o) (mCoreFile o) (mSaveFiles o) (mTarFile o))))
  | CoreName i name b => obj i (fun _ => Ok (Nothing, change p i (fun o => USig (mListHandlers o) b name (mSaveFiles o) (mTarFile o))))
  | TarName i name b => obj i (fun _ => Ok (Nothing, change p i (fun o => USig (mListHandlers o) (mAddPid o) (mCoreFile o) (Some b) name)))
  | Dump i => obj i (fun o => Ok (Printed (dump (Z.to_nat C_NSIG) o 0), p))
  | Handle i sig => obj i (fun o => do (core, tar, calls) <- handle pid o sig; Ok (Handled core tar calls false, p))
  | Program sig d => Ok (Nothing, set_act sig d)
  | Deliver sig =>
      match acts p sig with
      | Ignored => Ok (Nothing, p)
      | Own f => Ok (Called f, p)
      | Default => if terminates sig then Ok (Ends, Prog (objs p) (acts p) true) else Ok (Nothing, p)
      | Vector =>                              (* _sigHandler, UnixSignal.cpp:40-53 *)
          if (sig <=? 0) || (C_NSIG <=? sig) then Ok (Nothing, set_act sig Ignored)
          else obj O (fun o =>
            do (core, tar, calls) <- handle pid o sig;
            Ok (Handled core tar calls (terminates sig), Prog (objs p) (sets (acts p) sig Default) (terminates sig)))
      end
  end.
(** Calls and signals one after the other (UnixSignal.cpp:40-160). *)
Fixpoint run (pid : Z) (p : prog) (l : list op) : res (list (op * obs) * prog) :=
  match l with [] => Ok ([], p) | e :: t => do (x, p) <- step pid p e; do (xs, p) <- run pid p t; Ok ((e, x) :: xs, p) end.
