(** Model of a process with SelfDetect from its start to its end (SelfDetect.cpp:45-143, SelfDetect.h:33-45, UnixSignal.cpp:40-53,
    121-141, Variables.cpp:23-24): the program registers itself and files, makes files and ends; exit runs the functions given to atexit,
    then the destructors of gSelf and gSigVec; signals come between any two steps, also while others are handled.

    Simplified: one thread; names are numbers and the name of the pid file stands for the program; the pid file can always be made; one
    registration of a handler is one step, the file of a core dump and the records of LOG are left out; a stopped process is continued. *)
From Verif Require Import Base.
Local Open Scope nat_scope.

(** What the program does (SelfDetect.h:47-48). *)
Inductive op := RegisterProgram (p : nat) | RegisterFile (f : nat) | MakeFile (f : nat).
(** Steps: of RegisterProgram (SelfDetect.cpp:66, 73-80, 81, 103, 108), of push_back in RegisterFile (142, in the middle of which the
    list is half changed), of the program itself, exit, SelfDetect::Exit (111), unlink (128), the loop at the n-th name (130-135), of
    _sigHandler (UnixSignal.cpp:42, 50, 52), the destructors (SelfDetect.h:40-45, UnixSignal.cpp:121-128), the end. *)
Inductive instr := IStat (p : nat) | ICreate (p : nat) | IAtExit | IReg (g : nat) | ISetFile (p : nat) | IPush1 (f : nat) | IPush2 (f : nat) | IMake (f : nat)
  | IDone | IExit | IUnlink (f : nat) | IWalk (n : nat) | ISetIgn (g : nat) | ISetDfl (g : nat) | IKill (g : nat) | IFreeSelf | IFreeSig | IEnd.
(** SIG_DFL, _sigHandler, SIG_IGN (UnixSignal.cpp:42, 50, 138) *)
Inductive dispo := Dfl | Caught | Ign.
(** The files there are; mFile; mListFiles, and whether it is half changed; whether gSelf is there; functions given to atexit; the
    registrations with gSigVec; the dispositions; what is still to do; whether the process is over; the pid files it made (not in the
    source). *)
Record state := State { files : list nat; file : option nat; reg : list nat; half : bool; alive : bool; atx : nat; hs : list nat; disp : nat -> dispo;
  code : list instr; over : bool; pids : list nat }.
(** A state with other things to do (not in the source). *)
Definition set_code (s : state) (c : list instr) : state := State (files s) (file s) (reg s) (half s) (alive s) (atx s) (hs s) (disp s) c (over s) (pids s).
(** A state with other files (not in the source). *)
Definition set_files (s : state) (l : list nat) : state := State l (file s) (reg s) (half s) (alive s) (atx s) (hs s) (disp s) (code s) (over s) (pids s).
(** A state with other registrations and dispositions (not in the source). *)
Definition set_disp (s : state) (l : list nat) (d : nat -> dispo) : state := State (files s) (file s) (reg s) (half s) (alive s) (atx s) l d (code s) (over s) (pids s).
(** A state with another list (not in the source). *)
Definition set_reg (s : state) (l : list nat) (h : bool) : state := State (files s) (file s) l h (alive s) (atx s) (hs s) (disp s) (code s) (over s) (pids s).
(** The end of the process (not in the source). *)
Definition finish (s : state) : state := State (files s) (file s) (reg s) (half s) (alive s) (atx s) (hs s) (disp s) [] true (pids s).
(** signal, UnixSignal.cpp:42, 50, 126, 138 *)
Definition give (d : nat -> dispo) (g : nat) (x : dispo) : nat -> dispo := fun h => if h =? g then x else d h.
(** unlink, SelfDetect.cpp:128, 134 *)
Definition unlink (f : nat) (l : list nat) : list nat := filter (fun x => negb (x =? f)) l.
(** Does SIG_DFL end the process? All but CHLD, CONT, STOP, TSTP, TTIN, TTOU, URG and WINCH (UnixSignal.cpp:50-52; numbers of Linux). *)
Definition fatal (g : nat) : bool := negb (((17 <=? g) && (g <=? 23)) || (g =? 28)).
(** KILL and STOP cannot be caught (UnixSignal.cpp:138). *)
Definition catchable (g : nat) : bool := negb ((g =? 9) || (g =? 19)).
(** _sigHandler and Handler with sigfcn for each registration, UnixSignal.cpp:40-53, 99-106, SelfDetect.cpp:50-53 *)
Definition handler (s : state) (g : nat) : list instr := ISetIgn g :: repeat IExit (count_occ Nat.eq_dec (hs s) g) ++ [ISetDfl g; IKill g].
(** A signal comes (UnixSignal.cpp:40, 52). *)
Definition deliver (s : state) (g : nat) : state :=
  match disp s g with Caught => set_code s (handler s g ++ code s) | Ign => s | Dfl => if fatal g then finish s else s end.
(** The signals registered: 1 to 63 but CONT and CHLD (SelfDetect.cpp:86-106). *)
Definition registered : list nat := filter (fun g => negb ((g =? 17) || (g =? 18))) (seq 1 63).
(** The steps of a call (SelfDetect.cpp:55-109, 138-143). *)
Definition compile (o : op) : list instr :=
  match o with
  | RegisterProgram p => [IStat p; ICreate p; IAtExit] ++ map IReg registered ++ [ISetFile p]
  | RegisterFile f => [IPush1 f; IPush2 f]
  | MakeFile f => [IMake f]
  end.
(** One step; the list of a destroyed object, or half changed, must not be walked. *)
Definition exec (s : state) (i : instr) : res state :=
  match i with
  | IStat p => if existsb (Nat.eqb p) (files s) then Ok (set_code s [IDone]) else Ok s
  | ICreate p => Ok (State (files s ++ [p]) (file s) (reg s) (half s) (alive s) (atx s) (hs s) (disp s) (code s) (over s) (pids s ++ [p]))
  | IAtExit => Ok (State (files s) (file s) (reg s) (half s) (alive s) (S (atx s)) (hs s) (disp s) (code s) (over s) (pids s))
  | IReg g => Ok (set_disp s (hs s ++ [g]) (if catchable g then give (disp s) g Caught else disp s))
  | ISetFile p => Ok (State (files s) (Some p) (reg s) (half s) (alive s) (atx s) (hs s) (disp s) (code s) (over s) (pids s))
  | IPush1 f => Ok (set_reg s (reg s) true)
  | IPush2 f => Ok (set_reg s (reg s ++ [f]) false)
  | IMake f => Ok (set_files s (files s ++ [f]))
  | IDone => Ok (set_code s (repeat IExit (atx s) ++ [IFreeSelf; IFreeSig; IEnd]))
  | IExit => if alive s then Ok (set_code s (match file s with Some p => [IUnlink p] | None => [] end ++ IWalk 0 :: code s)) else UB
  | IUnlink f => Ok (set_files s (unlink f (files s)))
  | IWalk n => if alive s && negb (half s) then
      match nth_error (reg s) n with Some f => Ok (set_code (set_files s (unlink f (files s))) (IWalk (S n) :: code s)) | None => Ok s end else UB
  | ISetIgn g => Ok (set_disp s (hs s) (give (disp s) g Ign))
  | ISetDfl g => Ok (set_disp s (hs s) (give (disp s) g Dfl))
  | IKill g => Ok (deliver s g)
  | IFreeSelf => Ok (State (files s) None (reg s) (half s) false (atx s) (hs s) (disp s) (code s) (over s) (pids s))
  | IFreeSig => Ok (set_disp s [] (fun g => if g <? 64 then Dfl else disp s g))
  | IEnd => Ok (finish s)
  end.
(** What happens next: a step of the process, a signal (not in the source). *)
Inductive event := Tick | Sig (g : nat).
(** One event, SelfDetect.cpp:45-143; nothing happens to a process that is over. *)
Definition step (s : state) (e : event) : res state :=
  if over s then Diverge else
  match e with
  | Tick => match code s with i :: c => exec (set_code s c) i | [] => Diverge end
  | Sig g => Ok (deliver s g)
  end.
(** The start (Variables.cpp:23-24, SelfDetect.h:33-38) of a process in which all signals have their default effect. *)
Definition start (fs : list nat) (ops : list op) : state := State fs None [] false true 0 [] (fun _ => Dfl) (flat_map compile ops ++ [IDone]) false [].
(** Several events (not in the source). *)
Fixpoint run (s : state) (es : list event) : res state := match es with [] => Ok s | e :: es => do s <- step s e; run s es end.
