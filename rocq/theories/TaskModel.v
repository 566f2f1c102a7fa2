(** Model of class Thread (Threads.h:255-300, Threads.cpp:279-317).

    Threads run in any order, a step at a time; a schedule is a list of events.  A pthread_t is
    a number that is never used again (the real numbers are used again after pthread_join).
    What a task does is not modelled; a task may do any of the events. *)
From Verif Require Import Base.
Local Open Scope Z_scope.

(** Where a thread is in thread_main, Threads.cpp:285-293; [p] is the address of its wrapArgs. *)
Inductive pc :=
| Enter (p : nat)                         (* about to read p->task *)
| HasTask (p : nat) (task : Z)            (* about to read p->arg *)
| HasBoth (p : nat) (task arg : Z)        (* about to delete p *)
| Calling (task arg : Z)                  (* about to call the task *)
| InTask
| Finished.
(** A Thread object: mThread ([None] is 0) and mStackSize. *)
Record thread := Thread_ { mThread : option nat; mStackSize : Z }.
(** Blocks allocated with new; threads not yet joined; Thread objects (Threads.cpp:279-317). *)
Record world := World { heap : list (nat * (Z * Z)); threads : list (nat * pc); objs : list (nat * thread); fresh : nat }.
(** The start: no Thread objects, no threads (Threads.cpp:279-317). *)
Definition world0 : world := World [] [] [] 0.

(** A table looked up; not in the source. *)
Fixpoint get {A} (l : list (nat * A)) (k : nat) : option A :=
  match l with [] => None | (x, v) :: t => if Nat.eqb x k then Some v else get t k end.
(** An entry taken out; not in the source. *)
Definition remove {A} (l : list (nat * A)) (k : nat) : list (nat * A) := filter (fun e => negb (Nat.eqb (fst e) k)) l.
(** An entry set; not in the source. *)
Definition put {A} (l : list (nat * A)) (k : nat) (v : A) : list (nat * A) := (k, v) :: remove l k.

(** The calls of Threads.h:257-299: the constructor, start, join, the destructor; and a step of a thread. *)
Inductive event :=
| New (stack : Z)                                  (* Thread(wStackSize) *)
| Start (i : nat) (task arg : Z) (code : Z)        (* start; [code] is what pthread_create returns *)
| Start2 (i : nat) (task arg stack : Z) (code : Z)
| Join (by_ : option nat) (i : nat)                (* join, called in the given thread or in none of these *)
| Destroy (i : nat)
| Step (t : nat).                                  (* thread t goes on *)
(** Threads.cpp:279-317 *)
Inductive obs :=
| Made (i : nat)
| Started (i t : nat) (task arg stack : Z)
| Ran (t : nat) (task arg : Z)                     (* the task is called *)
| Returned (t : nat)
| Joined (i t : nat).

(** pthread_attr_setstacksize: EINVAL below PTHREAD_STACK_MIN (Threads.cpp:302). *)
Definition EINVAL : Z := 22.
(** pthread_attr_setstacksize, Threads.cpp:302 *)
Definition setstacksize (n : Z) : Z := if n <? 16384 then EINVAL else 0.
(** bool res = code (Threads.cpp:302 and 307) *)
Definition to_bool (code : Z) : bool := negb (code =? 0).
(** start, Threads.cpp:295-311 *)
Definition start (w : world) (i : nat) (o : thread) (task arg code : Z) : res (world * list obs) :=
  do _ <- assert_ (match mThread o with None => true | Some _ => false end);
  do _ <- assert_ (negb (to_bool (setstacksize (mStackSize o))));
  let p := fresh w in let t := S p in
  let h := (p, (task, arg)) :: heap w in
  do _ <- assert_ (negb (to_bool code));
  Ok (World h ((t, Enter p) :: threads w) (put (objs w) i (Thread_ (Some t) (mStackSize o))) (S t),
      [Started i t task arg (mStackSize o)]).
(** The error number in the alert of start, Threads.cpp:308-309; [None]: no alert. *)
Definition alert_error (code : Z) : option Z := let res := to_bool code in if res then Some (if res then 1 else 0) else None.

(** A step of thread_main (Threads.cpp:285-293). *)
Definition step_thread (w : world) (t : nat) : res (world * list obs) :=
  let at_ (h : list (nat * (Z * Z))) (c : pc) := World h (put (threads w) t c) (objs w) (fresh w) in
  match get (threads w) t with
  | Some (Enter p) => match get (heap w) p with Some (task, _) => Ok (at_ (heap w) (HasTask p task), []) | None => UB end
  | Some (HasTask p task) => match get (heap w) p with Some (_, arg) => Ok (at_ (heap w) (HasBoth p task arg), []) | None => UB end
  | Some (HasBoth p task arg) => match get (heap w) p with Some _ => Ok (at_ (remove (heap w) p) (Calling task arg), []) | None => UB end
  | Some (Calling task arg) => Ok (at_ (heap w) InTask, [Ran t task arg])
  | Some InTask => Ok (at_ (heap w) Finished, [Returned t])
  | Some Finished | None => Diverge                  (* nothing to do *)
  end.
(** join, Threads.h:297.  [Diverge]: still waiting.  Joining the thread 0 is undefined, joining itself is EDEADLK. *)
Definition join (w : world) (by_ : option nat) (i : nat) (o : thread) : res (world * list obs) :=
  match mThread o with
  | None => UB
  | Some t =>
      do _ <- assert_ (negb (match by_ with Some b => Nat.eqb b t | None => false end));
      match get (threads w) t with
      | Some Finished => Ok (World (heap w) (remove (threads w) t) (put (objs w) i (Thread_ None (mStackSize o))) (fresh w), [Joined i t])
      | Some _ => Diverge
      | None => UB
      end
  end.
Definition step (w : world) (e : event) : res (world * list obs) :=
  match e with
  | New stack => Ok (World (heap w) (threads w) (put (objs w) (fresh w) (Thread_ None stack)) (S (fresh w)), [Made (fresh w)])
  | Start i task arg code => match get (objs w) i with Some o => start w i o task arg code | None => UB end
  | Start2 i task arg stack code =>                  (* Threads.cpp:313-317: int to size_t *)
      match get (objs w) i with Some o => start w i (Thread_ (mThread o) (u64 stack)) task arg code | None => UB end
  | Join b i => match get (objs w) i with Some o => join w b i o | None => UB end
  | Destroy i => match get (objs w) i with Some _ => Ok (World (heap w) (threads w) (remove (objs w) i) (fresh w), []) | None => UB end
  | Step t => step_thread w t
  end.
(** Events one after the other, threads in any order (Threads.cpp:279-317). *)
Fixpoint run (w : world) (l : list event) : res (world * list obs) :=
  match l with
  | [] => Ok (w, [])
  | e :: l => do (w, a) <- step w e; do (w, b) <- run w l; Ok (w, a ++ b)
  end.
