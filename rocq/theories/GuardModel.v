(** Model of ScopedLock (Threads.h:164-175) in programs of several threads that return, throw and catch.

    A program is a structured statement: actions, sequences, choices, loops, blocks with a ScopedLock, blocks between
    lock() and unlock(), try and catch, throw, return.  The stack of a thread has what is left to do when a statement
    is over; an exception or a return goes down the stack and runs the destructors on the way.

    Simplified: choices and the ends of loops are free; one kind of exception; a return in a function called is a
    return in the block itself; an unlock by a thread that does not hold the mutex fails with EPERM and changes only
    mLockCnt (pthread_mutex_unlock of a recursive mutex). *)
From Verif Require Import Base.
Local Open Scope nat_scope.

(** Statements (the users' code).  [Scoped m s]: { ScopedLock lock(m); s } (Threads.h:171); [Bare m s]: m.lock(); s;
    m.unlock(); [Copied m s]: { ScopedLock lock(m); s; ScopedLock copy(lock); } with the implicit copy (167-175). *)
Inductive stmt :=
| Act | Seq (s t : stmt) | Choose (s t : stmt) | Loop (s : stmt)
| Scoped (m : nat) (s : stmt) | Bare (m : nat) (s : stmt) | Copied (m : nat) (s : stmt)
| Try (s t : stmt) | Throw | Return.
(** What is to be done when a statement is over: go on, run ~ScopedLock (Threads.h:174), unlock, catch. *)
Inductive frame := KSeq (s : stmt) | KLoop (s : stmt) | KScope (m : nat) | KUnlock (m : nat) | KTry (t : stmt).
(** A statement to be done, or one that is over: at its end, by an exception, by a return (Threads.h:164-165). *)
Inductive control := Exec (s : stmt) | Norm | Exc | Ret.
(** The mutexes with holder and depth, their mLockCnt (Threads.h:78-80), and the threads. *)
Record world := W { own : nat -> option (nat * nat); cnt : nat -> Z; threads : list (control * list frame) }.
(** Mutex::lock, Threads.cpp:159-181; [None]: it has to wait.  The mutex is recursive (96). *)
Definition lock (w : world) (t m : nat) : option world :=
  match own w m with
  | None => Some (W (fun k => if k =? m then Some (t, 1) else own w k) (fun k => if k =? m then (cnt w m + 1)%Z else cnt w k) (threads w))
  | Some (h, d) => if h =? t then Some (W (fun k => if k =? m then Some (t, S d) else own w k) (fun k => if k =? m then (cnt w m + 1)%Z else cnt w k) (threads w)) else None
  end.
(** Mutex::unlock, Threads.cpp:183-189 *)
Definition unlock (w : world) (t m : nat) : world :=
  W (match own w m with
     | Some (h, d) => if h =? t then fun k => if k =? m then (match d with S (S d) => Some (t, S d) | _ => None end) else own w k else own w
     | None => own w
     end) (fun k => if k =? m then (cnt w m - 1)%Z else cnt w k) (threads w).
(** A thread with other things to do (not in the source). *)
Definition goto (w : world) (t : nat) (c : control) (ks : list frame) : world := W (own w) (cnt w) (upd (threads w) t (c, ks)).
(** One step of a thread, with the outcome of its choice; [None]: it has to wait or is at its end (Threads.h:164-175). *)
Definition step (w : world) (t : nat) (b : bool) : option world :=
  match nth_error (threads w) t with
  | None => None
  | Some (c, ks) =>
      match c with
      | Exec Act => Some (goto w t Norm ks)
      | Exec (Seq s s') => Some (goto w t (Exec s) (KSeq s' :: ks))
      | Exec (Choose s s') => Some (goto w t (Exec (if b then s else s')) ks)
      | Exec (Loop s) => Some (if b then goto w t (Exec s) (KLoop s :: ks) else goto w t Norm ks)
      | Exec (Scoped m s) => option_map (fun w => goto w t (Exec s) (KScope m :: ks)) (lock w t m)
      | Exec (Bare m s) => option_map (fun w => goto w t (Exec s) (KUnlock m :: ks)) (lock w t m)
      | Exec (Copied m s) => option_map (fun w => goto w t (Exec s) (KScope m :: KScope m :: ks)) (lock w t m)
      | Exec (Try s s') => Some (goto w t (Exec s) (KTry s' :: ks))
      | Exec Throw => Some (goto w t Exc ks)
      | Exec Return => Some (goto w t Ret ks)
      | _ =>
          match ks with
          | [] => None
          | KSeq s :: ks => Some (goto w t (match c with Norm => Exec s | _ => c end) ks)
          | KLoop s :: ks => Some (goto w t (match c with Norm => Exec (Loop s) | _ => c end) ks)
          | KScope m :: ks => Some (goto (unlock w t m) t c ks)
          | KUnlock m :: ks => Some (match c with Norm => goto (unlock w t m) t c ks | _ => goto w t c ks end)
          | KTry s :: ks => Some (goto w t (match c with Exc => Exec s | _ => c end) ks)
          end
      end
  end.
(** A schedule (not in the source). *)
Fixpoint run (w : world) (es : list (nat * bool)) : option world :=
  match es with [] => Some w | (t, b) :: es => match step w t b with Some w => run w es | None => None end end.
(** Threads at the start of their programs, all mutexes free (Threads.cpp:88-100). *)
Definition start (ps : list stmt) : world := W (fun _ => None) (fun _ => 0%Z) (map (fun s => (Exec s, [])) ps).
