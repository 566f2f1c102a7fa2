(** Model of RefCntBase and RefCntPointer (Utils.h:200-218 and 234-277, Utils.cpp:41-67).

    Objects and RefCntPointers ("slots") are numbered.  A slot is a variable of the
    program or a member of an object; deleting an object destroys its member slots.
    A reference count is a short.  Logging and the (always free) mutex of the object are
    left out: one thread, or calls serialised by the mutexes. *)
From Verif Require Import Base.
Local Open Scope Z_scope.

(** An object: never made, with its mRefCnt (Utils.h:203), deleted. *)
Inductive ostate := Absent | Alive (mRefCnt : Z) | Dead.
(** A RefCntPointer: the object it is a member of, whether it is constructed, rcPointer (Utils.h:236). *)
Record slot := Slot { owner : option nat; constructed : bool; rcPointer : option nat }.
(** All objects and pointers of the program (Utils.h:198-277). *)
Record heap := Heap {
  objs : nat -> ostate; nobjs : nat;
  slots : nat -> slot; nslots : nat;
  deleted : list nat                      (* the objects deleted so far, latest first *)
}.

(** Helper: change of a function (not in the source). *)
Definition set {A} (f : nat -> A) (i : nat) (x : A) : nat -> A := fun j => if (j =? i)%nat then x else f j.
(** Helper: an object changed (not in the source). *)
Definition set_obj (s : heap) (o : nat) (x : ostate) : heap := Heap (set (objs s) o x) (nobjs s) (slots s) (nslots s) (deleted s).
(** Helper: a pointer changed (not in the source). *)
Definition set_slot (s : heap) (i : nat) (x : slot) : heap := Heap (objs s) (nobjs s) (set (slots s) i x) (nslots s) (deleted s).
(** delete this, Utils.cpp:56: the object is gone. *)
Definition kill (s : heap) (o : nat) : heap := Heap (set (objs s) o Dead) (nobjs s) (slots s) (nslots s) (o :: deleted s).
(** Conversion to short, the type of mRefCnt (Utils.h:203). *)
Definition s16 (z : Z) : Z := (z + 2 ^ 15) mod 2 ^ 16 - 2 ^ 15.

(** Access to a slot that is not (or no longer) constructed is undefined (Utils.h:198-277). *)
Definition get_slot (s : heap) (i : nat) : res slot :=
  let x := slots s i in if constructed x then Ok x else UB.

(** The member slots of an object, in the order of destruction (the last one first) (Utils.h:198-277). *)
Definition members (s : heap) (o : nat) : list nat :=
  rev (filter (fun i => match owner (slots s i) with Some p => (p =? o)%nat | None => false end) (seq 0 (nslots s))).

(** Utils.cpp:60-67 *)
Definition incRefCnt (s : heap) (o : nat) : res heap :=
  match objs s o with
  | Alive c => if c <? 0 then Abort else Ok (set_obj s o (Alive (s16 (c + 1))))
  | _ => UB
  end.

(** Utils.h:238-240; [dec] is decRefCnt. *)
Definition rcDec (dec : heap -> nat -> res (heap * Z)) (s : heap) (i : nat) : res heap :=
  do x <- get_slot s i;
  match rcPointer x with
  | None => Ok s
  | Some o =>
      do (s, n) <- dec s o;
      if n <=? 0 then
        do x <- get_slot s i; Ok (set_slot s i (Slot (owner x) true None))
      else Ok s
  end.
(** ~RefCntPointer, Utils.h:248-252 *)
Definition destroy (dec : heap -> nat -> res (heap * Z)) (s : heap) (i : nat) : res heap :=
  do s <- rcDec dec s i;
  do x <- get_slot s i;
  Ok (set_slot s i (Slot (owner x) false None)).
(** The destructors of the members one after the other (Utils.h:248-252). *)
Fixpoint destroy_all (dec : heap -> nat -> res (heap * Z)) (s : heap) (l : list nat) : res heap :=
  match l with
  | [] => Ok s
  | i :: t => do s <- destroy dec s i; destroy_all dec s t
  end.

(** Utils.cpp:41-59.  [delete this] destroys the members; from its start on any use of
    the object is undefined. *)
Fixpoint decRefCnt (fuel : nat) (s : heap) (o : nat) : res (heap * Z) :=
  match fuel with
  | O => Diverge
  | S n =>
      match objs s o with
      | Alive c =>
          if c <? 0 then Abort
          else
            let c' := s16 (c - 1) in
            let s := set_obj s o (Alive c') in
            if c' <=? 0 then do s <- destroy_all (decRefCnt n) (kill s o) (members s o); Ok (s, c')
            else Ok (s, c')
      | _ => UB
      end
  end.
(** Objects die at most once each, so this depth is always enough (Utils.cpp:41-59). *)
Definition dec_ (s : heap) (o : nat) : res (heap * Z) := decRefCnt (S (nobjs s)) s o.

Definition rcInc (s : heap) (i : nat) : res heap :=           (* Utils.h:237 *)
  do x <- get_slot s i;
  match rcPointer x with None => Ok s | Some o => incRefCnt s o end.

(** Construct the next slot (Utils.h:198-277). *)
Definition new_slot (s : heap) (x : slot) : heap :=
  Heap (objs s) (nobjs s) (set (slots s) (nslots s) x) (S (nslots s)) (deleted s).
Definition construct (s : heap) (p : option nat) : res heap :=  (* Utils.h:242-245 *)
  let i := nslots s in rcInc (new_slot s (Slot None true p)) i.
(** Assignment to rcPointer, as in Utils.h:257, 259 and 274. *)
Definition put (s : heap) (i : nat) (p : option nat) : res heap :=
  do x <- get_slot s i; Ok (set_slot s i (Slot (owner x) true p)).

(** [new T], T having [k] RefCntPointer members: the count is 0. *)
Fixpoint add_members (s : heap) (o : nat) (k : nat) : heap :=
  match k with O => s | S k => add_members (new_slot s (Slot (Some o) true None)) o k end.
(** new T with its members: mRefCnt is 0 (Utils.h:217). *)
Definition new_obj (s : heap) (k : nat) : heap :=
  let o := nobjs s in
  add_members (Heap (set (objs s) o (Alive 0)) (S o) (slots s) (nslots s) (deleted s)) o k.

(** What a program does; the pointers are those of Utils.h:242-275. *)
Inductive op :=
| New (k : nat)                          (* new T *)
| Declare                                (* RefCntPointer<T> p; *)
| CopyOf (j : nat)                       (* RefCntPointer<T> p(q); *)
| OfRaw (o : option nat)                 (* RefCntPointer<T> p(ptr); *)
| Assign (i j : nat)                     (* p = q; *)
| AssignRaw (i : nat) (o : option nat)   (* p = ptr; *)
| Free (i : nat)                         (* p.free(); *)
| Destroy (i : nat).                     (* p goes out of scope *)

(** Utils.h:198-277 *)
Definition step (s : heap) (x : op) : res heap :=
  match x with
  | New k => Ok (new_obj s k)
  | Declare => construct s None
  | CopyOf j => do q <- get_slot s j; construct s (rcPointer q)
  | OfRaw o => construct s o
  | Assign i j =>                                           (* Utils.h:257; the argument is a copy *)
      do q <- get_slot s j;
      let other := nslots s in
      do s <- construct s (rcPointer q);
      do s <- rcInc s other;
      do s <- rcDec dec_ s i;
      do q <- get_slot s other;
      do s <- put s i (rcPointer q);
      destroy dec_ s other
  | AssignRaw i o =>                                        (* Utils.h:259 *)
      do x <- get_slot s i;
      do s <- put s i o;
      do s <- rcInc s i;
      match rcPointer x with None => Ok s | Some old => do (s, _) <- dec_ s old; Ok s end
  | Free i =>                                               (* Utils.h:269-275 *)
      do s <- rcDec dec_ s i; put s i None
  | Destroy i => destroy dec_ s i
  end.
(** The operations of a program (Utils.h:198-277). *)
Fixpoint run (s : heap) (l : list op) : res heap :=
  match l with
  | [] => Ok s
  | x :: t => do s <- step s x; run s t
  end.
(** The start of a program (Utils.h:198-277). *)
Definition empty : heap := Heap (fun _ => Absent) 0 (fun _ => Slot None false None) 0 [].
