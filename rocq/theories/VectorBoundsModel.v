(** Model of the bounds checks of VectorBase, Vector and BitVector in machine arithmetic.

    Pointers are 64-bit addresses and size_t has 64 bits; [k] is sizeof(T).  Pointer
    arithmetic wraps as compiled code does on a flat address space, although the language leaves
    arithmetic beyond the block undefined. *)
From Verif Require Import Base.
Local Open Scope Z_scope.

(** [mStart], [mEnd] (Vector.h:136-138) *)
Record range := Range { first : Z; past : Z }.
(** p + i for a pointer to elements of size k (Vector.h:136-138). *)
Definition ptr_add (k p i : Z) : Z := u64 (p + k * i).
(** mEnd - mStart, Vector.h:174-179; None if an assertion fails (mData is NULL or mStart). *)
Definition vsize (k : Z) (r : range) : res Z := if first r <=? past r then Ok ((past r - first r) / k) else Abort.
(** operator[], Vector.h:298-308, BitVector.h:290-300, bit and settfb, BitVector.h:282-308: the address used. *)
Definition at_ (k : Z) (r : range) (index : Z) : res Z :=
  if ptr_add k (first r) index <? past r then Ok (ptr_add k (first r) index) else Abort.
(** segment, Vector.h:356-371, BitVector.h:160-170 *)
Definition segment_ (k : Z) (r : range) (start span : Z) : res range :=
  let wStart := ptr_add k (first r) start in
  let wEnd := ptr_add k wStart span in
  if wEnd <=? past r then Ok (Range wStart wEnd) else Abort.
(** head and tail, Vector.h:373-376, BitVector.h:188-189 *)
Definition head_ (k : Z) (r : range) (span : Z) : res range := segment_ k r 0 span.
(** tail, Vector.h:375-376: segment(start,size()-start). *)
Definition tail_ (k : Z) (r : range) (start : Z) : res range := do n <- vsize k r; segment_ k r start (u64 (n - start)).
(** fill(val,start,length), Vector.h:276-282: the range that is filled; start and length are unsigned. *)
Definition fill_ (k : Z) (r : range) (start length : Z) : res range :=
  let dp := ptr_add k (first r) (u32 start) in
  let end_ := ptr_add k dp (u32 length) in
  if end_ <=? past r then Ok (Range dp end_) else Abort.
