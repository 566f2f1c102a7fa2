(** Model of the memory leak counters used by threads (MemoryLeak.h:62-115, Utils.cpp:70-110): constructors and destructors of checked
    objects, labels and the printed table, step by step. The counters are guarded by memChkLock, mMemMap is not.

    Simplified: a counter is an unbounded number; no copies of objects (C79); gMemLeakDebug is off; of mMemMap only who is in it; an access
    to the counters of a class is a read and a write, an access to mMemMap has a beginning and an end. *)
From Verif Require Import Base.
Local Open Scope Z_scope.

(** A checked object of a class is constructed, destroyed; one is labelled by RN_MEMLOG; text() prints (MemoryLeak.h:100-115, Utils.cpp:81-87). *)
Inductive call := New (c : nat) | Del (c : nat) | Label | Text.
(** Where a thread is in its call: not begun; with the lock; counters read; counters written; in a destructor between memChkDel and
    ~MemLabel; in mMemMap; in text() (Utils.cpp:81-110, MemoryLeak.h:84-86, 103). *)
Inductive stage := Idle | Locked | Got (n m : Z) | Written | Free | InMap | Printing.
(** A thread: its calls, the first under way (not in the source). *)
Record thread := T { at_ : stage; todo : list call }.
(** memChkLock, mMemNow and mMemTotal (Utils.cpp:72, MemoryLeak.h:62-63), the threads, the updates made (not in the source). *)
Record state := State { owner : option nat; now : nat -> Z; total : nat -> Z; threads : list thread; trace : list call }.
(** A table with one number changed (not in the source). *)
Definition put (h : nat -> Z) (c : nat) (v : Z) : nat -> Z := fun x => if Nat.eqb x c then v else h x.
(** Is a thread in mMemMap, in text(), in an access to counters? (MemoryLeak.h:85, 103, Utils.cpp:85, 93-95, 102) *)
Definition in_map (x : thread) : bool := match at_ x with InMap => true | _ => false end.
(** In text(), Utils.cpp:84-86 *)
Definition printing (x : thread) : bool := match at_ x with Printing => true | _ => false end.
(** In memChkNew or memChkDel with the counters, Utils.cpp:93-95, 102 *)
Definition counting (x : thread) : bool := match at_ x with Got _ _ => true | _ => false end.
(** Thread [t] is elsewhere (not in the source). *)
Definition move (s : state) (t : nat) (x : thread) : state := State (owner s) (now s) (total s) (upd (threads s) t x) (trace s).
(** Another owner of memChkLock, Utils.cpp:92, 96, 100, 110 *)
Definition set_owner (s : state) (o : option nat) : state := State o (now s) (total s) (threads s) (trace s).
(** Thread [t] goes on with call [c] before calls [r], MemoryLeak.h:84-86, 100-114, Utils.cpp:81-110; accesses of two threads at a time, one
    of them writing, are undefined; [Diverge] if it has to wait. *)
Definition advance (s : state) (t : nat) (k : stage) (c : call) (r : list call) : res state :=
  match c, k with
  | New _, Idle | Del _, Idle => match owner s with None => Ok (move (set_owner s (Some t)) t (T Locked (c :: r))) | Some _ => Diverge end
  | New x, Locked | Del x, Locked => if existsb printing (threads s) || existsb counting (threads s) then UB else Ok (move s t (T (Got (now s x) (total s x)) (c :: r)))
  | New x, Got n m => Ok (move (State (owner s) (put (now s) x (n + 1)) (put (total s) x (m + 1)) (threads s) (trace s ++ [c])) t (T Written (c :: r)))
  | Del x, Got n m => Ok (move (State (owner s) (put (now s) x (n - 1)) (total s) (threads s) (trace s ++ [c])) t (T Written (c :: r)))
  | New _, Written => Ok (move (set_owner s None) t (T Idle r))
  | Del _, Written => Ok (move (set_owner s None) t (T Free (c :: r)))
  | Del _, Free | Label, Idle => if existsb in_map (threads s) then UB else Ok (move s t (T InMap (c :: r)))
  | Del _, InMap | Label, InMap => Ok (move s t (T Idle r))
  | Text, Idle => if existsb counting (threads s) then UB else Ok (move s t (T Printing (c :: r)))
  | Text, Printing => Ok (move s t (T Idle r))
  | _, _ => Diverge
  end.
(** One step of a thread (not in the source). *)
Definition step (s : state) (t : nat) : res state := match nth_error (threads s) t with Some (T k (c :: r)) => advance s t k c r | _ => Diverge end.
(** Several steps (not in the source). *)
Fixpoint run (s : state) (l : list nat) : res state := match l with [] => Ok s | t :: l => do s <- step s t; run s l end.
(** The start, Utils.cpp:70-79 *)
Definition start (progs : list (list call)) : state := State None (fun _ => 0) (fun _ => 0) (map (fun p => T Idle p) progs) [].
