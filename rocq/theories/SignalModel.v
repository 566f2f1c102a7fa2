(** Model of UnixSignal (UnixSignal.cpp, UnixSignal.h) and SelfDetect (SelfDetect.cpp).

    Handlers are numbers; a handler may register further handlers, which [eff] lists.
    Messages, the core writer, the shell command that saves files and the locks (recursive, so a handler may
    register handlers for its own signal) are left out, except for the decision to write a core file.  Signal numbers are those of Linux on x86. *)
From Verif Require Import Base UtilsModel SqlModel.
Local Open Scope Z_scope.

(** What the process does with a signal: default, ignore, _sigHandler (UnixSignal.cpp:40-53). *)
Inductive disposition := Dfl | Ign | Ours.
(** The global object gSigVec, with the dispositions the process has set (UnixSignal.h:31-37, UnixSignal.cpp:110-119). *)
Record sigs := Sigs { mListHandlers : Z -> list Z; disp : Z -> disposition }.
(** _NSIG-1 of Linux, the largest signal number; UnixSignal.cpp:112. *)
Definition C_NSIG : Z := 64.
(** UnixSignal::UnixSignal, UnixSignal.cpp:110-119 *)
Definition sigs0 : sigs := Sigs (fun _ => []) (fun _ => Dfl).
(** signal(2): SIGKILL and SIGSTOP and numbers out of range are refused. *)
Definition signal_ (d : Z -> disposition) (sig : Z) (x : disposition) : Z -> disposition :=
  if (1 <=? sig) && (sig <=? 64) && negb (sig =? 9) && negb (sig =? 19) then fun y => if y =? sig then x else d y else d.
(** UnixSignal::Register, UnixSignal.cpp:130-141 *)
Definition register (s : sigs) (handler sig : Z) : sigs :=
  if (sig <=? 0) || (C_NSIG <=? sig) then s
  else Sigs (fun y => if y =? sig then mListHandlers s y ++ [handler] else mListHandlers s y) (signal_ (disp s) sig Ours).
(** Register called several times, UnixSignal.cpp:130-141. *)
Definition registers (s : sigs) (l : list (Z * Z)) : sigs := fold_left (fun s e => register s (fst e) (snd e)) l s.
(** SIGQUIT, SIGILL, SIGABRT, SIGFPE, SIGSEGV, SIGBUS, SIGSYS, SIGTRAP, SIGXCPU, SIGXFSZ: UnixSignal.cpp:60-61 *)
Definition core_case (sig : Z) : bool := existsb (Z.eqb sig) [3; 4; 6; 8; 11; 7; 31; 5; 24; 25].
(** The loop over the list, UnixSignal.cpp:101-105; handlers may extend the list behind the iterator. *)
Fixpoint handler_loop (fuel : nat) (eff : Z -> list (Z * Z)) (s : sigs) (sig : Z) (i : nat) : res (list Z * sigs) :=
  match fuel with
  | O => Diverge
  | S n =>
      match nth_error (mListHandlers s sig) i with
      | None => Ok ([], s)
      | Some h => do (calls, s') <- handler_loop n eff (registers s (eff h)) sig (S i); Ok (h :: calls, s')
      end
  end.
(** UnixSignal::Handler, UnixSignal.cpp:55-108: whether a core file was asked for, the handlers called. *)
Definition Handler (fuel : nat) (eff : Z -> list (Z * Z)) (s : sigs) (sig : Z) : res (bool * list Z * sigs) :=
  if (sig <? 0) || (C_NSIG <=? sig) then UB
  else do (calls, s') <- handler_loop fuel eff s sig 0; Ok (core_case sig, calls, s').
(** _sigHandler, UnixSignal.cpp:40-53; the last component says whether the signal is raised again. *)
Definition sigHandler (fuel : nat) (eff : Z -> list (Z * Z)) (s : sigs) (sig : Z) : res (bool * list Z * sigs * bool) :=
  let s := Sigs (mListHandlers s) (signal_ (disp s) sig Ign) in
  if (sig <=? 0) || (C_NSIG <=? sig) then Ok (false, [], s, false)
  else do (core, calls, s') <- Handler fuel eff s sig; Ok (core, calls, Sigs (mListHandlers s') (signal_ (disp s') sig Dfl), true).

(** ** SelfDetect *)
(** SelfDetect.cpp:50-143 *)
Definition path := list Z.
(** strrchr(argv0,'/'): the rest from the last slash on, slash included; everything if there is none (SelfDetect.cpp:57-58). *)
Fixpoint from_slash (s : list Z) : option (list Z) :=
  match s with
  | [] => None
  | c :: t => match from_slash t with Some r => Some r | None => if c =? 47 then Some s else None end
  end.
(** snprintf(buf, 99, ...), SelfDetect.cpp:60-61 *)
Definition buf_of (argv0 : list Z) : list Z :=
  firstn 98 (lit "/var/run/" ++ (match from_slash argv0 with Some p => p | None => argv0 end) ++ lit ".pid").
(** The file a path names: repeated slashes count as one (SelfDetect.cpp:50-143). *)
Fixpoint squeeze (s : list Z) : list Z :=
  match s with
  | [] => []
  | c :: t => match t with d :: _ => if (c =? 47) && (d =? 47) then squeeze t else c :: squeeze t | [] => [c] end
  end.
(** The file SelfDetect uses for its process number, SelfDetect.cpp:57-64. *)
Definition pid_file (argv0 : list Z) : path := squeeze (buf_of argv0).

(** Processes by number.  [Checked]: stat found no file.  [Created]: the file is written, mFile is
    not yet set.  [Ready]: mFile is set.  [Exiting]: Exit has run at least once (SelfDetect.cpp:50-143). *)
Inductive phase := Idle | Checked (f : path) | Created (f : path) | Ready (f : path) | Exiting (f : path) | Gone.
(** The files with the process number in them, the processes, and mListFiles of each (SelfDetect.h:31). *)
Record sys := Sys { fs : path -> option nat; ph : nat -> phase; files : nat -> list path }.
(** A file written or removed (SelfDetect.cpp:50-143). *)
Definition fput (m : path -> option nat) (f : path) (v : option nat) : path -> option nat := fun x => if weqb f x then v else m x.
(** A process changed; not in the source. *)
Definition pput {A} (m : nat -> A) (p : nat) (v : A) : nat -> A := fun x => if Nat.eqb p x then v else m x.
Inductive sevent :=
| SCheck (p : nat) (argv0 : list Z)        (* SelfDetect.cpp:64-71 *)
| SCreate (p : nat) (ok : bool)            (* SelfDetect.cpp:73-80 *)
| SReady (p : nat)                         (* SelfDetect.cpp:81-108: up to mFile = strdup(buf) *)
| SFile (p : nat) (f : path)               (* RegisterFile, SelfDetect.cpp:138-143 *)
| SExit (p : nat)                          (* Exit, SelfDetect.cpp:111-136 *)
| SDie (p : nat).                          (* the process ends, for whatever reason *)
(** SelfDetect.cpp:50-143 *)
Definition unlink_all (m : path -> option nat) (l : list path) : path -> option nat := fold_left (fun m f => fput m f None) l m.
(** One event of a process: SelfDetect.cpp:50-143, in steps that other processes may come between. *)
Definition sstep (s : sys) (e : sevent) : sys :=
  match e with
  | SCheck p argv0 =>
      match ph s p with
      | Idle => match fs s (pid_file argv0) with
                | Some _ => Sys (fs s) (pput (ph s) p Gone) (files s)       (* Exit::exit(DETECTFILE); e is not yet registered *)
                | None => Sys (fs s) (pput (ph s) p (Checked (pid_file argv0))) (files s)
                end
      | _ => s
      end
  | SCreate p ok =>
      match ph s p with
      | Checked f => if ok then Sys (fput (fs s) f (Some p)) (pput (ph s) p (Created f)) (files s)
                     else Sys (fs s) (pput (ph s) p Gone) (files s)
      | _ => s
      end
  | SReady p => match ph s p with Created f => Sys (fs s) (pput (ph s) p (Ready f)) (files s) | _ => s end
  | SFile p f => match ph s p with Gone => s | _ => Sys (fs s) (ph s) (pput (files s) p (files s p ++ [f])) end
  | SExit p =>
      match ph s p with
      | Ready f | Exiting f => Sys (unlink_all (fput (fs s) f None) (files s p)) (pput (ph s) p (Exiting f)) (files s)
      | Created f => Sys (unlink_all (fs s) (files s p)) (pput (ph s) p Gone) (files s)     (* mFile is NULL *)
      | _ => s
      end
  | SDie p => Sys (fs s) (pput (ph s) p Gone) (files s)
  end.
(** Events of processes in any order (SelfDetect.cpp:50-143). *)
Definition srun (s : sys) (l : list sevent) : sys := fold_left sstep l s.
(** SelfDetect::RegisterProgram, the registration loop, SelfDetect.cpp:85-106; [h] is sigfcn. *)
Fixpoint register_loop (n : nat) (h i : Z) (s : sigs) : sigs :=
  match n with
  | O => s
  | S m => register_loop m h (i + 1) (if (i =? 18) || (i =? 17) then s else register s h i)
  end.
(** SelfDetect.cpp:85-106: all signals from 1 on. *)
Definition register_signals (h : Z) (s : sigs) : sigs := register_loop (Z.to_nat (C_NSIG - 1)) h 1 s.
