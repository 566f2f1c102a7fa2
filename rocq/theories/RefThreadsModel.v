(** Model of RefCntPointer used by several threads (Utils.h:200-276, Utils.cpp:41-67), step by step.

    Each pointer variable belongs to one thread at a time, which may hand it over to another; an object may
    have pointers as members, set when it is created and released by its destructor.  Each thread does one
    thing at a time: nothing, an incRefCnt for a copy, or a decRefCnt; the mutex of the object is taken, held
    and released in steps of their own.  Touching a deleted object is [UB].
    Simplified: an object is created together with its first pointer (no other thread can know of it); a
    copy becomes a variable when the count is changed, though the pointer is set before (only its own thread
    sees it); messages are left out, and so is the reading of the count for them by the destructor, which
    depends on the level of logging. *)
From Verif Require Import Base RefCntModel.
Local Open Scope Z_scope.

(** Where incRefCnt is: Utils.cpp:62, 66 and 67. *)
Inductive istage := ILock | IAdd | IUnlock.
(** Where decRefCnt is: getRefCnt of free (Utils.h:270), then Utils.cpp:44, 46-47, 48 and 56. *)
Inductive rstage := RRead | RLock | RSub | RUnlock (save : Z) | RDelete.
(** [Rel st o rest]: in decRefCnt of [o]; the pointers to [rest] are to be released after it (Utils.h:198-277). *)
Inductive work := Idle | Inc (st : istage) (o v : nat) | Rel (st : rstage) (o : nat) (rest : list nat).
(** mRefCnt, whether it exists, mRefMutex (Utils.h:202-203), and the pointers that are members. *)
Record object := Object { cnt : Z; alive : bool; lockedby : option nat; members : list nat }.
(** The objects, the pointer variables with their owner and object, what each thread is doing (Utils.h:198-277). *)
Record state := State { objs : list object; vars : list (option (nat * nat)); works : list work }.
(** What happens next: Utils.h:242-252, 269-275, and handing over a variable. *)
Inductive label :=
| LNew (t : nat) (vs : list nat)     (* RefCntPointer v(new Type), with these variables moved into members *)
| LCopy (t v : nat)                  (* RefCntPointer w(v) *)
| LGive (t v t' : nat)               (* the variable is handed over to t' *)
| LDestroy (t v : nat)               (* ~RefCntPointer *)
| LFree (t v : nat)                  (* v.free() *)
| LSteal (t v : nat)                 (* RefCntPointer w(v), where v belongs to another thread *)
| LStep (t : nat).

(** Helper: the thread is between two calls (Utils.h:198-277). *)
Definition idle (s : state) (t : nat) : bool := match nth_error (works s) t with Some Idle => true | _ => false end.
(** The object a variable of thread [t] refers to (Utils.h:198-277). *)
Definition mine (s : state) (t v : nat) : option nat :=
  match nth_error (vars s) v with Some (Some (t', o)) => if (t' =? t)%nat then Some o else None | _ => None end.
(** Helper: the thread is doing something else (Utils.h:198-277). *)
Definition with_work (s : state) (t : nat) (k : work) : state := State (objs s) (vars s) (upd (works s) t k).
(** Helper: an object changed (Utils.h:198-277). *)
Definition with_obj (s : state) (o : nat) (r : object) : state := State (upd (objs s) o r) (vars s) (works s).
(** Helper: a variable changed (Utils.h:198-277). *)
Definition with_var (s : state) (v : nat) (x : option (nat * nat)) : state := State (objs s) (upd (vars s) v x) (works s).
(** Variables taken from a thread one after the other (Utils.h:198-277). *)
Fixpoint take_all (s : state) (t : nat) (vs : list nat) : option (list nat * state) :=
  match vs with
  | [] => Some ([], s)
  | v :: vs => match mine s t v with
               | Some o => match take_all (with_var s v None) t vs with Some (os, s') => Some (o :: os, s') | None => None end
               | None => None
               end
  end.
(** Helper: the next member to be released, or nothing (Utils.h:198-277). *)
Definition next (rest : list nat) : work := match rest with [] => Idle | o :: rest => Rel RLock o rest end.
(** The record of an object that is touched (Utils.h:198-277). *)
Definition touch (s : state) (o : nat) : res object :=
  match nth_error (objs s) o with Some r => if alive r then Ok r else UB | None => UB end.
(** ScopedLock of mRefMutex, Utils.cpp:44 and 62; [Diverge]: another thread has it. *)
Definition locked (s : state) (t o : nat) (k : work) : res state :=
  do r <- touch s o;
  match lockedby r with
  | None => Ok (with_work (with_obj s o (Object (cnt r) true (Some t) (members r))) t k)
  | Some _ => Diverge
  end.
(** The end of the ScopedLock, Utils.cpp:48 and 67. *)
Definition unlocked (s : state) (t o : nat) (k : work) : res state :=
  do r <- touch s o; Ok (with_work (with_obj s o (Object (cnt r) true None (members r))) t k).
(** incRefCnt, Utils.cpp:60-67; decRefCnt, Utils.cpp:41-59; free, Utils.h:269-275. *)
Definition micro (s : state) (t : nat) : res state :=
  match nth_error (works s) t with
  | None | Some Idle => Diverge
  | Some (Inc ILock o v) => locked s t o (Inc IAdd o v)
  | Some (Inc IAdd o v) =>
      do r <- touch s o;
      if cnt r <? 0 then Abort
      else let s := with_work (with_obj s o (Object (s16 (cnt r + 1)) true (lockedby r) (members r))) t (Inc IUnlock o v) in
           Ok (State (objs s) (vars s ++ [Some (t, o)]) (works s))
  | Some (Inc IUnlock o v) => unlocked s t o Idle
  | Some (Rel RRead o rest) => do r <- touch s o; Ok (with_work s t (Rel RLock o rest))
  | Some (Rel RLock o rest) => locked s t o (Rel RSub o rest)
  | Some (Rel RSub o rest) =>
      do r <- touch s o;
      if cnt r <? 0 then Abort
      else let save := s16 (cnt r - 1) in
           Ok (with_work (with_obj s o (Object save true (lockedby r) (members r))) t (Rel (RUnlock save) o rest))
  | Some (Rel (RUnlock save) o rest) => unlocked s t o (if save <=? 0 then Rel RDelete o rest else next rest)
  | Some (Rel RDelete o rest) =>
      do r <- touch s o;
      Ok (with_work (with_obj s o (Object (cnt r) false (lockedby r) [])) t (next (rev (members r) ++ rest)))
  end.
(** One step of the system (Utils.cpp:41-67, Utils.h:234-277). *)
Definition step (s : state) (l : label) : res state :=
  match l with
  | LNew t vs =>
      if idle s t then
        match take_all s t vs with
        | Some (os, s) => Ok (State (objs s ++ [Object 1 true None os]) (vars s ++ [Some (t, length (objs s))]) (works s))
        | None => Diverge
        end
      else Diverge
  | LCopy t v => if idle s t then match mine s t v with Some o => Ok (with_work s t (Inc ILock o v)) | None => Diverge end else Diverge
  | LGive t v t' => if idle s t then match mine s t v with Some o => Ok (with_var s v (Some (t', o))) | None => Diverge end else Diverge
  | LDestroy t v => if idle s t then match mine s t v with Some o => Ok (with_work (with_var s v None) t (Rel RLock o [])) | None => Diverge end else Diverge
  | LFree t v => if idle s t then match mine s t v with Some o => Ok (with_work (with_var s v None) t (Rel RRead o [])) | None => Diverge end else Diverge
  | LSteal t v => if idle s t then match nth_error (vars s) v with Some (Some (_, o)) => Ok (with_work s t (Inc ILock o v)) | _ => Diverge end else Diverge
  | LStep t => micro s t
  end.
(** The steps of an execution (Utils.cpp:41-67, Utils.h:234-277). *)
Fixpoint runs (s : state) (l : list label) : res state :=
  match l with
  | [] => Ok s
  | a :: l => do s <- step s a; runs s l
  end.
(** [n] threads and nothing else (Utils.h:198-277). *)
Definition start (n : nat) : state := State [] [] (repeat Idle n).
