(** Model of the memory leak detector (MemoryLeak.h, Utils.cpp:70-109).

    An object of a class with a detector has a label (MemLabel::mccKey).  Counters are int;
    memChkNew and memChkDel hold a lock, so each is one step. *)
From Verif Require Import Base.
Local Open Scope Z_scope.

(** MemStats: by class number (below mMax), and by label (MemoryLeak.h:66-112). *)
Record stats := Stats { mMemNow : list Z; mMemTotal : list Z; mMemMap : list Z -> Z }.
Definition mMax : nat := 30.                      (* MemoryLeak.h:28-62 *)
(** MemStats(), Utils.cpp:74-79 *)
Definition stats0 : stats := Stats (repeat 0 mMax) (repeat 0 mMax) (fun _ => 0).
(** mMemMap[k] = v, MemoryLeak.h:85 and 103 *)
Definition set_map (f : list Z -> Z) (k : list Z) (v : Z) : list Z -> Z := fun x => if list_eq_dec Z.eq_dec x k then v else f x.
(** memChkNew, Utils.cpp:89-96 *)
Definition memChkNew (m : stats) (c : nat) : res stats :=
  do n <- rd (mMemNow m) c; do n <- int_ (n + 1); do now <- wr (mMemNow m) c n;
  do n <- rd (mMemTotal m) c; do n <- int_ (n + 1); do total <- wr (mMemTotal m) c n;
  Ok (Stats now total (mMemMap m)).
(** memChkDel, Utils.cpp:98-109, with gMemLeakDebug *)
Definition memChkDel (debug : bool) (m : stats) (c : nat) : res stats :=
  do n <- rd (mMemNow m) c; do n <- int_ (n - 1); do now <- wr (mMemNow m) c n;
  do _ <- assert_ (negb (debug && (n <? 0)));
  Ok (Stats now (mMemTotal m) (mMemMap m)).

(** Objects: number, class, mccKey (MemoryLeak.h:66-112). *)
Record obj := Obj { oid : nat; oclass : nat; okey : list Z }.
(** The counters gMemStats (Utils.cpp:70-72), the objects there are, and the number made so far. *)
Record heap := Heap { st : stats; live : list obj; made : nat }.
(** The start of the program (MemoryLeak.h:66-112). *)
Definition heap0 : heap := Heap stats0 [] 0.
(** The object with a number (MemoryLeak.h:66-112). *)
Definition at_ (l : list obj) (i : nat) : option obj := List.find (fun o => Nat.eqb (oid o) i) l.
(** The objects without one (MemoryLeak.h:66-112). *)
Definition without (l : list obj) (i : nat) : list obj := filter (fun o => negb (Nat.eqb (oid o) i)) l.
Inductive event :=
| Construct (c : nat)               (* checkerClass(), MemoryLeak.h:109 *)
| Copy (i : nat)                    (* the copy constructor that the compiler makes: no memChkNew, mccKey copied *)
| Assign (i j : nat)                (* the assignment that the compiler makes: mccKey copied *)
| Label (i : nat) (key : list Z)    (* RN_MEMLOG, MemoryLeak.h:100-104 *)
| Destroy (i : nat).                (* ~checkerClass(), MemoryLeak.h:110-112, then ~MemLabel(), MemoryLeak.h:84-86 *)
Definition set_key (l : list obj) (i : nat) (k : list Z) : list obj :=
  map (fun o => if Nat.eqb (oid o) i then Obj (oid o) (oclass o) k else o) l.
(** One event, with the calls of memChkNew and memChkDel of MemoryLeak.h:109-112. *)
Definition step (debug : bool) (h : heap) (e : event) : res heap :=
  match e with
  | Construct c => do s <- memChkNew (st h) c; Ok (Heap s (Obj (made h) c [] :: live h) (S (made h)))
  | Copy i => match at_ (live h) i with Some o => Ok (Heap (st h) (Obj (made h) (oclass o) (okey o) :: live h) (S (made h))) | None => UB end
  | Assign i j =>
      match at_ (live h) i, at_ (live h) j with
      | Some _, Some o => Ok (Heap (st h) (set_key (live h) i (okey o)) (made h))
      | _, _ => UB
      end
  | Label i k =>
      match at_ (live h) i with
      | Some _ =>
          do n <- int_ (mMemMap (st h) k + 1);
          Ok (Heap (Stats (mMemNow (st h)) (mMemTotal (st h)) (set_map (mMemMap (st h)) k n)) (set_key (live h) i k) (made h))
      | None => UB
      end
  | Destroy i =>
      match at_ (live h) i with
      | Some o =>
          do s <- memChkDel debug (st h) (oclass o);
          do n <- int_ (mMemMap s (okey o) - 1);
          Ok (Heap (Stats (mMemNow s) (mMemTotal s) (set_map (mMemMap s) (okey o) n)) (without (live h) i) (made h))
      | None => UB
      end
  end.
(** Events one after the other (MemoryLeak.h:66-112). *)
Fixpoint run (debug : bool) (h : heap) (l : list event) : res heap :=
  match l with
  | [] => Ok h
  | e :: l => do h <- step debug h e; run debug h l
  end.
