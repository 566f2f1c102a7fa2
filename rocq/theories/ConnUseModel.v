(** Model of iqConnect on a queue that threads are using (Interthread.h:129-132, 246-255, 296-311): two InterthreadQueues A and B with
    their mutexes and signals, A.iqConnect(B) by any thread at any time. The pointers to the mutex and to the signal are
    read where the source reads them: the ScopedLock keeps the mutex it was given, wait and signal take the pointers anew.

    Simplified: of the calls only read(), write() and iqConnect; A is connected to B only. *)
From Verif Require Import Base.
Local Open Scope nat_scope.

(** The two queues; mutex 0 and signal 0 are those of A, 1 those of B (Interthread.h:116-120). *)
Inductive queue := A | B.
(** Calls, Interthread.h:296, 246, 129 *)
Inductive call := Write (q : queue) (v : nat) | Read (q : queue) | Connect.
(** Where a thread is in its call: not begun; with mutex m; in the middle of an access to mQ; asleep on signal c with mutex m to take
    again; woken; done with mQ; past the unlock, before signal; between the two assignments of iqConnect
    (Interthread.h:130-131, 248-253, 307-310). *)
Inductive stage := Idle | Locked (m : nat) | Busy (m : nat) | Asleep (c m : nat) | Woken (m : nat) | Unlocking (m : nat) | Signalling | Between.
(** A thread: its calls, the first under way (not in the source). *)
Record thread := T { at_ : stage; todo : list call }.
(** Accesses to a queue that are through, in order (not in the source). *)
Inductive event := Put (q : queue) (v : nat) | Got (q : queue) (v : nat).
(** How far A is connected (0: not, 1: mLockPointer, 2: both; Interthread.h:130-131), the contents, the owners of the two mutexes. *)
Record state := State { conn : nat; inA : list nat; inB : list nat; own0 : option nat; own1 : option nat; threads : list thread; trace : list event }.
(** *mLockPointer, Interthread.h:130 *)
Definition lockof (s : state) (q : queue) : nat := match q with A => if 1 <=? conn s then 1 else 0 | B => 1 end.
(** *mWriteSignalPointer, Interthread.h:131 *)
Definition sigof (s : state) (q : queue) : nat := match q with A => if 2 <=? conn s then 1 else 0 | B => 1 end.
(** mQ, Interthread.h:116 *)
Definition items (s : state) (q : queue) : list nat := match q with A => inA s | B => inB s end.
(** The owner of a mutex (Threads.h:78). *)
Definition owner (s : state) (m : nat) : option nat := match m with O => own0 s | _ => own1 s end.
(** Is it the same queue? (not in the source) *)
Definition same (q r : queue) : bool := match q, r with A, A | B, B => true | _, _ => false end.
(** The queue of a call (Interthread.h:246, 296). *)
Definition on (c : call) : option queue := match c with Write q _ | Read q => Some q | Connect => None end.
(** Is a thread in the middle of an access to mQ of the queue? (Interthread.h:249, 308) *)
Definition inside (q : queue) (x : thread) : bool :=
  match at_ x, todo x with Busy _, c :: _ => match on c with Some r => same q r | None => false end | _, _ => false end.
(** Is a thread asleep on a signal? (Interthread.h:251) *)
Definition sleeps (c : nat) (x : thread) : bool := match at_ x with Asleep c' _ => c =? c' | _ => false end.
(** A state with another owner of a mutex (not in the source). *)
Definition set_owner (s : state) (m : nat) (o : option nat) : state :=
  match m with O => State (conn s) (inA s) (inB s) o (own1 s) (threads s) (trace s)
  | _ => State (conn s) (inA s) (inB s) (own0 s) o (threads s) (trace s) end.
(** A state with other contents and one access more (not in the source). *)
Definition set_items (s : state) (q : queue) (l : list nat) (e : event) : state :=
  match q with A => State (conn s) l (inB s) (own0 s) (own1 s) (threads s) (trace s ++ [e])
  | B => State (conn s) (inA s) l (own0 s) (own1 s) (threads s) (trace s ++ [e]) end.
(** A state in which a thread is elsewhere (not in the source). *)
Definition set_at (s : state) (t : nat) (x : thread) : state := State (conn s) (inA s) (inB s) (own0 s) (own1 s) (upd (threads s) t x) (trace s).
(** A state with the connection made (Interthread.h:130-131). *)
Definition set_conn (s : state) (n : nat) : state := State (Nat.max (conn s) n) (inA s) (inB s) (own0 s) (own1 s) (threads s) (trace s).
(** Thread [t] goes on with call [c] before calls [r] (Interthread.h:129-132, 246-255, 296-311); two threads in one mQ, and a wait with
    a mutex not held, are undefined; [Diverge] if it has to wait. *)
Definition advance (s : state) (t : nat) (k : stage) (c : call) (r : list call) : res state :=
  match c, k with
  | Connect, Idle => Ok (set_at (set_conn s 1) t (T Between (c :: r)))
  | Connect, Between => Ok (set_at (set_conn s 2) t (T Idle r))
  | Connect, _ => Diverge
  | Write q _, Idle | Read q, Idle =>
      match owner s (lockof s q) with None => Ok (set_at (set_owner s (lockof s q) (Some t)) t (T (Locked (lockof s q)) (c :: r))) | Some _ => Diverge end
  | Write q _, Locked m | Read q, Locked m => if existsb (inside q) (threads s) then UB else Ok (set_at s t (T (Busy m) (c :: r)))
  | Write q v, Busy m => Ok (set_at (set_items s q (items s q ++ [v]) (Put q v)) t (T (Unlocking m) (c :: r)))
  | Read q, Busy m =>
      match items s q with
      | x :: l => Ok (set_at (set_items s q l (Got q x)) t (T (Unlocking m) (c :: r)))
      | [] => if lockof s q =? m then Ok (set_at (set_owner s m None) t (T (Asleep (sigof s q) m) (c :: r))) else UB
      end
  | Read _, Woken m => match owner s m with None => Ok (set_at (set_owner s m (Some t)) t (T (Locked m) (c :: r))) | Some _ => Diverge end
  | Write _ _, Unlocking m => Ok (set_at (set_owner s m None) t (T Signalling (c :: r)))
  | Read _, Unlocking m => Ok (set_at (set_owner s m None) t (T Idle r))
  | Write q _, Signalling => if existsb (sleeps (sigof s q)) (threads s) then Diverge else Ok (set_at s t (T Idle r))
  | _, _ => Diverge
  end.
(** A step of a thread; a signal that wakes a thread; a wake-up without a signal (Threads.h:251-254). *)
Inductive label := Step (t : nat) | Signal (t u : nat) | Spurious (u : nat).
(** One step, Interthread.h:129-311 *)
Definition step (s : state) (l : label) : res state :=
  match l with
  | Step t => match nth_error (threads s) t with Some (T k (c :: r)) => advance s t k c r | _ => Diverge end
  | Signal t u =>
      match nth_error (threads s) t, nth_error (threads s) u with
      | Some (T Signalling (Write q v :: r)), Some (T (Asleep c m) p) =>
          if c =? sigof s q then Ok (set_at (set_at s u (T (Woken m) p)) t (T Idle r)) else Diverge
      | _, _ => Diverge
      end
  | Spurious u => match nth_error (threads s) u with Some (T (Asleep c m) p) => Ok (set_at s u (T (Woken m) p)) | _ => Diverge end
  end.
(** The start: two queues, empty and not connected (Interthread.h:125). *)
Definition start (progs : list (list call)) : state := State 0 [] [] None None (map (fun p => T Idle p) progs) [].
(** Several steps (not in the source). *)
Fixpoint run (s : state) (ls : list label) : res state := match ls with [] => Ok s | l :: ls => do s <- step s l; run s ls end.
