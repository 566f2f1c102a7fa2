(** Model of several PointerFIFOs (LinkedLists.h:59-101) in one memory, and of copying them.

    The class defines no copy constructor, no assignment and no destructor, so a copy is a copy of its four members
    and the nodes are shared; and the nodes of a FIFO that is destroyed or assigned to stay allocated.  The member
    functions are those of ListModel.v, on the nodes of all FIFOs.

    Simplified: construction over a variable that exists is taken as leaving its scope and entering it again. *)
From Verif Require Import Base ListModel.
Local Open Scope Z_scope.

(** The members mHead, mTail, mFreeList and mSize, LinkedLists.h:63-66 *)
Record obj := Obj { o_head : option nat; o_tail : option nat; o_free : option nat; o_size : Z }.
(** The memory with the nodes (LinkedLists.h:39-53) of all FIFOs, and the variables (of the user, not in the source). *)
Record world := W { heap : list lnode; vars : nat -> option obj }.
(** PointerFIFO(), LinkedLists.h:70-73 *)
Definition obj0 : obj := Obj None None None 0.
(** A FIFO with the memory it works on (LinkedLists.h:63-66). *)
Definition pack (m : list lnode) (o : obj) : fifo := mkFifo m (o_head o) (o_tail o) (o_free o) (o_size o).
(** Its members (LinkedLists.h:63-66). *)
Definition members (f : fifo) : obj := Obj (f_head f) (f_tail f) (f_free f) (f_size f).
(** A variable with another value (not in the source). *)
Definition set_var (v : nat -> option obj) (x : nat) (o : option obj) : nat -> option obj := fun y => if (y =? x)%nat then o else v y.
(** PointerFIFO x; y = x or PointerFIFO y(x); a call; the end of the scope (LinkedLists.h:59-101). *)
Inductive op := New (x : nat) | Copy (y x : nat) | Use (x : nat) (f : fop) | Drop (x : nat).
(** One statement.  What is not a call gives 0.  Construction: LinkedLists.h:70-73; copying and destruction are
    implicit in LinkedLists.h:59-101; calls: LinkedLists.cpp:33-84. *)
Definition step (w : world) (o : op) : res (world * Z) :=
  match o with
  | New x => Ok (W (heap w) (set_var (vars w) x (Some obj0)), 0)
  | Copy y x => match vars w x with Some f => Ok (W (heap w) (set_var (vars w) y (Some f)), 0) | None => UB end
  | Use x f => match vars w x with
               | Some b => do r <- fstep (pack (heap w) b) f;
                           Ok (W (f_cells (fst r)) (set_var (vars w) x (Some (members (fst r)))), snd r)
               | None => UB
               end
  | Drop x => Ok (W (heap w) (set_var (vars w) x None), 0)
  end.
(** A program (of the user, not in the source) with what the statements give. *)
Fixpoint run (w : world) (p : list op) : res (world * list Z) :=
  match p with
  | [] => Ok (w, [])
  | o :: p => do r <- step w o; do q <- run (fst r) p; Ok (fst q, snd r :: snd q)
  end.
(** No FIFO, no node (not in the source). *)
Definition world0 : world := W [] (fun _ => None).
