(** Model of RWLock (Threads.h:117-140, Threads.cpp:191-208).

    pthread_rwlock as in glibc with the default attributes: readers are let in whenever no writer
    has the lock; a thread that has it for writing gets EDEADLK at once from wrlock and rdlock;
    unlocking a lock the thread does not have is undefined.  Fewer than 2^29 read locks are held;
    creating and destroying the lock succeed. *)
From Verif Require Import Base.

(** A thread (Threads.h:131-137). *)
Definition tid := nat.
(** pthread_rwlock_t, Threads.h:122: who has it for writing, who for reading and how often. *)
Record rw := Rw { writer : option tid; readers : list tid }.
(** RWLock(), Threads.cpp:191-198 *)
Definition rw0 : rw := Rw None [].
(** wlock, rlock, trywlock, tryrlock and unlock, Threads.h:131-137. *)
Inductive op := WLock | RLock | TryW | TryR | Unlock.
(** What a call does now: it returns a value (true also for those that return no truth value), it
    waits, or it is undefined (Threads.h:131-137). *)
Inductive now := Returns (v : bool) (s : rw) | Waits | Undefined.
(** One of the read locks of a thread given back (Threads.h:131-137). *)
Fixpoint remove_one (t : tid) (l : list tid) : list tid :=
  match l with
  | [] => []
  | x :: l => if Nat.eqb x t then l else x :: remove_one t l
  end.
(** Does the thread have the lock for writing? (Threads.h:131-137) *)
Definition is_writer (s : rw) (t : tid) : bool := match writer s with Some w => Nat.eqb w t | None => false end.
Definition step (s : rw) (t : tid) (o : op) : now :=
  match o with
  | WLock => (* Threads.h:131 *)
      if is_writer s t then Returns true s          (* EDEADLK, which wlock() ignores *)
      else match writer s, readers s with
           | None, [] => Returns true (Rw (Some t) [])
           | _, _ => Waits
           end
  | RLock => (* Threads.h:132 *)
      if is_writer s t then Returns true s          (* EDEADLK, which rlock() ignores *)
      else match writer s with
           | None => Returns true (Rw None (t :: readers s))
           | Some _ => Waits
           end
  | TryW => (* Threads.h:134 *)
      match writer s, readers s with
      | None, [] => Returns true (Rw (Some t) [])
      | _, _ => Returns false s
      end
  | TryR => (* Threads.h:135 *)
      match writer s with
      | None => Returns true (Rw None (t :: readers s))
      | Some _ => Returns false s
      end
  | Unlock => (* Threads.h:137 *)
      if is_writer s t then Returns true (Rw None (readers s))
      else if existsb (Nat.eqb t) (readers s) then Returns true (Rw (writer s) (remove_one t (readers s)))
      else Undefined
  end.
(** A history of calls that returned, in the order in which they did (Threads.h:131-137). *)
Definition event : Type := tid * op * bool.
(** Calls that returned one after the other, threads in any order (Threads.h:131-137). *)
Inductive history : rw -> list event -> rw -> Prop :=
| h_nil s : history s [] s
| h_snoc s l s' t o v s2 : history s l s' -> step s' t o = Returns v s2 -> history s (l ++ [(t, o, v)]) s2.
