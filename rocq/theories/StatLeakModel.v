(** Model of static objects that have a memory leak detector (MemoryLeak.h:62-115, Utils.cpp:70-110): gMemStats, memChkLock and static
    objects of checked classes are constructed in some order and destroyed in the reverse order.

    Simplified: a counter is an unbounded number; no copies and no labels; gMemLeakDebug is off; of mMemMap only that it is used. *)
From Verif Require Import Base.
Local Open Scope Z_scope.

(** gMemStats with its mMemMap, memChkLock (Utils.cpp:70, 72), a static object of a checked class. *)
Inductive obj := Stats | Lock | U (c : nat).
(** main constructs or destroys an object of a checked class (MemoryLeak.h:107-113). *)
Inductive op := New (c : nat) | Del (c : nat).
(** The objects that are there, the latest first; mMemNow, mMemTotal (MemoryLeak.h:62-63). *)
Record state := State { stack : list obj; now : nat -> Z; total : nat -> Z }.
(** A table with one number changed (not in the source). *)
Definition put (h : nat -> Z) (c : nat) (v : Z) : nat -> Z := fun x => if Nat.eqb x c then v else h x.
(** Are they the same object? (not in the source) *)
Definition same (a b : obj) : bool := match a, b with Stats, Stats | Lock, Lock => true | U c, U d => Nat.eqb c d | _, _ => false end.
(** Use of an object, undefined unless it is there (not in the source). *)
Definition use (s : state) (o : obj) : res unit := if existsb (same o) (stack s) then Ok tt else UB.
(** memChkLock: undefined if the mutex is not constructed; if [strict] is false the zeros that are there work as one, as they do with
    common libraries (Utils.cpp:92, 100). *)
Definition lock (strict : bool) (s : state) : res unit := if strict then use s Lock else Ok tt.
(** The constructor of a detector: memChkNew, Utils.cpp:89-96, MemoryLeak.h:109 *)
Definition new_ (strict : bool) (s : state) (c : nat) : res state :=
  do _ <- lock strict s; Ok (State (stack s) (put (now s) c (now s c + 1)) (put (total s) c (total s c + 1))).
(** Its destructor: memChkDel and ~MemLabel, Utils.cpp:98-110, MemoryLeak.h:84-86, 110-112 *)
Definition del_ (strict : bool) (s : state) (c : nat) : res state :=
  do _ <- lock strict s; let s := State (stack s) (put (now s) c (now s c - 1)) (total s) in do _ <- use s Stats; Ok s.
(** Construction of a static object; that of gMemStats sets all counters to 0 (Utils.cpp:74-79). *)
Definition build (strict : bool) (s : state) (o : obj) : res state :=
  match o with
  | Stats => Ok (State (Stats :: stack s) (fun _ => 0) (fun _ => 0))
  | Lock => Ok (State (Lock :: stack s) (now s) (total s))
  | U c => do s <- new_ strict s c; Ok (State (U c :: stack s) (now s) (total s))
  end.
(** Construction of the static objects before main (not in the source). *)
Fixpoint builds (strict : bool) (s : state) (l : list obj) : res state := match l with [] => Ok s | o :: l => do s <- build strict s o; builds strict s l end.
(** main (not in the source). *)
Fixpoint ops (strict : bool) (s : state) (l : list op) : res state :=
  match l with [] => Ok s | New c :: l => do s <- new_ strict s c; ops strict s l | Del c :: l => do s <- del_ strict s c; ops strict s l end.
(** Destruction of the objects [l] that are there, in the reverse order of construction (not in the source). *)
Fixpoint unwind (strict : bool) (s : state) (l : list obj) : res state :=
  match l with
  | [] => Ok s
  | o :: l => let s := State l (now s) (total s) in match o with U c => do s <- del_ strict s c; unwind strict s l | _ => unwind strict s l end
  end.
(** The start: zeros (not in the source). *)
Definition start : state := State [] (fun _ => 0) (fun _ => 0).
(** A whole program (not in the source). *)
Definition run (strict : bool) (order : list obj) (main : list op) : res state :=
  do s <- builds strict start order; do s <- ops strict s main; unwind strict s (stack s).
