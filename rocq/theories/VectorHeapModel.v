(** Model of the storage management of VectorBase / Vector / BitVector
    (Vector.h:125-385, BitVector.h:118-190, 264-265).

    The heap is a list of blocks; a freed block is [None] and its number is never
    reused, so a pointer into it stays recognisable as dangling.  A cell is [None]
    while uninitialised.  A vector object is (mData, mStart, mEnd-mStart); a pointer
    is a block number and an offset, NULL is [None].
    Simplified: T is a plain type of one cell; sizes are natural numbers;
    allocation never fails; memcpy of zero bytes is always fine; memcpy of a range
    onto itself changes nothing, any other overlap counts as a bad access;
    size()'s two assertions hold by construction; pointer arithmetic beyond the
    block without access is not an error. *)
From Verif Require Import Base.

Notation cell := (option Z).

(** Outcomes: [VBadAccess] is a read or write of freed, NULL or out-of-block
    memory, [VBadFree] the delete of a block that is not allocated, [VClient] the
    use of an object that does not exist (Vector.h:90-295). *)
Inductive vout (A : Type) := VOk (a : A) | VAbort | VBadAccess | VBadFree | VClient.
Arguments VOk {A} a. Arguments VAbort {A}. Arguments VBadAccess {A}. Arguments VBadFree {A}. Arguments VClient {A}.

(** Helper: sequencing of outcomes (not in the source). *)
Definition vbind {A B} (x : vout A) (f : A -> vout B) : vout B :=
  match x with
  | VOk a => f a
  | VAbort => VAbort
  | VBadAccess => VBadAccess
  | VBadFree => VBadFree
  | VClient => VClient
  end.
Notation "'vdo' x <- e ; k" := (vbind e (fun x => k))
  (at level 200, x pattern, e at level 100, k at level 200, right associativity).
(** assert, as in Vector.h:245. *)
Definition vassert (b : bool) : vout unit := if b then VOk tt else VAbort.

(** A T*: block and offset, NULL is [None] (Vector.h:136-138). *)
Definition ptr := option (nat * nat).
(** mData, mStart and the size, Vector.h:136-138. *)
Record vec := mkVec { v_data : option nat; v_start : ptr; v_len : nat }.
(** VectorBase(), Vector.h:210 *)
Definition null_vec := mkVec None None 0.
(** The heap and the objects of the program (Vector.h:90-295). *)
Record world := mkW { heap : list (option (list cell)); env : list (option vec) }.
(** Before the program: nothing (Vector.h:90-295). *)
Definition empty_world := mkW [] [].

(** Helper: an object that exists (not in the source). *)
Definition getv (w : world) (v : nat) : vout vec :=
  match nth_error (env w) v with
  | Some (Some x) => VOk x
  | _ => VClient
  end.
(** Helper: an object changed, or gone (not in the source). *)
Definition setv (w : world) (v : nat) (x : option vec) : world := mkW (heap w) (upd (env w) v x).
(** A new object, initially with all pointers NULL (Vector.h:210). *)
Definition push (w : world) : world * nat := (mkW (heap w) (env w ++ [Some null_vec]), length (env w)).

(** delete[] (Vector.h:188 and 221-225) *)
Definition free_block (w : world) (b : nat) : vout world :=
  match nth_error (heap w) b with
  | Some (Some _) => VOk (mkW (upd (heap w) b None) (env w))
  | _ => VBadFree
  end.

(** Vector.h:141-146  vInit *)
Definition vInit (w : world) (v : nat) (n : nat) : vout world :=
  vdo _ <- getv w v;
  match n with
  | O => VOk (setv w v (Some null_vec))
  | _ =>
      let b := length (heap w) in
      VOk (setv (mkW (heap w ++ [Some (repeat None n)]) (env w)) v (Some (mkVec (Some b) (Some (b, 0)) n)))
  end.

(** Vector.h:185-190  resize *)
Definition resize (w : world) (v : nat) (n : nat) : vout world :=
  vdo x <- getv w v;
  vdo w1 <- match v_data x with Some b => free_block w b | None => VOk w end;
  vInit w1 v n.

(** Vector.h:193  clear *)
Definition clear (w : world) (v : nat) : vout world := resize w v 0.

(** Memory access (Vector.h:90-295). *)
Definition load (w : world) (p : ptr) (n : nat) : vout (list cell) :=
  match n with
  | O => VOk []
  | _ =>
      match p with
      | None => VBadAccess
      | Some (b, off) =>
          match nth_error (heap w) b with
          | Some (Some blk) =>
              if Nat.leb (off + n) (length blk) then VOk (firstn n (skipn off blk)) else VBadAccess
          | _ => VBadAccess
          end
      end
  end.

(** Writing through a pointer, as by memcpy in Vector.h:199 and by Vector.h:273; nothing is allowed for no
    cells. *)
Definition store (w : world) (p : ptr) (cs : list cell) : vout world :=
  match cs with
  | [] => VOk w
  | _ =>
      match p with
      | None => VBadAccess
      | Some (b, off) =>
          match nth_error (heap w) b with
          | Some (Some blk) =>
              if Nat.leb (off + length cs) (length blk)
              then VOk (mkW (upd (heap w) b (Some (firstn off blk ++ cs ++ skipn (off + length cs) blk))) (env w))
              else VBadAccess
          | _ => VBadAccess
          end
      end
  end.

(** Do the areas of memcpy (Vector.h:199) overlap? *)
Definition overlap (p q : ptr) (n : nat) : bool :=
  match p, q with
  | Some (b, i), Some (c, j) => Nat.eqb b c && negb (Nat.eqb i j) && Nat.ltb i (j + n) && Nat.ltb j (i + n)
  | _, _ => false
  end.

(** memcpy, Vector.h:199, 204-205, 247 and 267; undefined for areas that overlap. *)
Definition memcpy (w : world) (dst src : ptr) (n : nat) : vout world :=
  if overlap dst src n then VBadAccess
  else vdo cs <- load w src n; store w dst cs.

(** Pointer plus number, as in Vector.h:205 and 244. *)
Definition padd (p : ptr) (k : nat) : ptr :=
  match p with Some (b, off) => Some (b, off + k) | None => None end.

(** Vector.h:197-200  clone.  [other] is looked up again after the resize, since it
    may be the same object. *)
Definition clone (w : world) (v o : nat) : vout world :=
  vdo y <- getv w o;
  vdo w1 <- resize w v (v_len y);
  vdo x <- getv w1 v;
  vdo y' <- getv w1 o;
  memcpy w1 (match v_data x with Some b => Some (b, 0) | None => None end) (v_start y') (v_len y').

(** Vector.h:150-158  shiftMem *)
Definition shiftMem (w : world) (v o : nat) : vout world :=
  vdo w1 <- clear w v;
  vdo y <- getv w1 o;
  let w2 := setv w1 v (Some y) in
  vdo y2 <- getv w2 o;
  VOk (setv w2 o (Some (mkVec None (v_start y2) (v_len y2)))).

(** Vector.h:161-169  makeAlias *)
Definition makeAlias (w : world) (v o : nat) : vout world :=
  vdo x <- getv w v;
  vdo y <- getv w o;
  vdo w1 <- match v_data x with
            | Some b => vdo _ <- vassert (match v_data y with Some c => negb (Nat.eqb b c) | None => true end); clear w v
            | None => VOk w
            end;
  vdo x1 <- getv w1 v;
  vdo y1 <- getv w1 o;
  VOk (setv w1 v (Some (mkVec (v_data x1) (v_start y1) (v_len y1)))).

(** Vector.h:287-295  VectorBase::operator=  (the assignment of BitVector) *)
Definition assign (w : world) (v o : nat) : vout world :=
  vdo y <- getv w o;
  match v_data y with
  | Some _ => clone w v o
  | None => makeAlias w v o
  end.

(** Constructors; each returns the number of the new object. *)
(** BitVector.h:142-143, Vector.h:327 *)
Definition new_vec (w : world) (n : nat) : vout (world * nat) :=
  let (w1, v) := push w in
  vdo w2 <- vInit w1 v n; VOk (w2, v).

(** BitVector.h:130-137  BitVector(const BitVector&) *)
Definition copy_bv (w : world) (o : nat) : vout (world * nat) :=
  vdo y <- getv w o;
  let (w1, v) := push w in
  vdo w2 <- match v_data y with Some _ => clone w1 v o | None => makeAlias w1 v o end;
  VOk (w2, v).

(** Vector.h:333  Vector(const Vector&) *)
Definition copy_const (w : world) (o : nat) : vout (world * nat) :=
  let (w1, v) := push w in
  vdo w2 <- clone w1 v o; VOk (w2, v).

(** Vector.h:330  Vector(Vector&): steals the block. *)
Definition copy_shift (w : world) (o : nat) : vout (world * nat) :=
  vdo y <- getv w o;
  let (w1, v) := push w in
  let w2 := setv w1 v (Some y) in
  VOk (setv w2 o (Some (mkVec None (v_start y) (v_len y))), v).

(** Vector.h:202-206 with Vector.h:342-345 / BitVector.h:146-150 *)
Definition concat (w : world) (a b : nat) : vout (world * nat) :=
  vdo ya <- getv w a;
  vdo yb <- getv w b;
  let (w1, v) := push w in
  vdo w2 <- resize w1 v (v_len ya + v_len yb);
  vdo x <- getv w2 v;
  vdo w3 <- memcpy w2 (v_start x) (v_start ya) (v_len ya);
  vdo w4 <- memcpy w3 (padd (v_start x) (v_len ya)) (v_start yb) (v_len yb);
  VOk (w4, v).

(** Vector.h:356-371, BitVector.h:160-170  segment (also head, tail, alias) *)
Definition segment (w : world) (o start span : nat) : vout (world * nat) :=
  vdo y <- getv w o;
  vdo _ <- vassert (Nat.leb (start + span) (v_len y));
  let (w1, v) := push w in
  VOk (setv w1 v (Some (mkVec None (padd (v_start y) start) span)), v).

(** Vector.h:221  destructor *)
Definition destroy (w : world) (v : nat) : vout world :=
  vdo w1 <- clear w v; VOk (setv w1 v None).

(** BitVector.h:174-182  cloneSegment (with return value optimisation) *)
Definition cloneSegment (w : world) (o start span : nat) : vout (world * nat) :=
  vdo (w1, t) <- segment w o start span;
  vdo (w2, r) <- new_vec w1 0;
  vdo w3 <- clone w2 r t;
  vdo w4 <- destroy w3 t;
  VOk (w4, r).

(** Element access: Vector.h:298-308, BitVector.h:303-308 *)
Definition read (w : world) (v i : nat) : vout cell :=
  vdo x <- getv w v;
  vdo _ <- vassert (Nat.ltb i (v_len x));
  vdo cs <- load w (padd (v_start x) i) 1;
  match cs with [c] => VOk c | _ => VBadAccess end.

(** Writing an element: Vector.h:298-302, BitVector.h:303-308 *)
Definition write (w : world) (v i : nat) (z : Z) : vout world :=
  vdo x <- getv w v;
  vdo _ <- vassert (Nat.ltb i (v_len x));
  store w (padd (v_start x) i) [Some z].

(** Vector.h:270-274  fill *)
Definition fill (w : world) (v : nat) (z : Z) : vout world :=
  vdo x <- getv w v;
  store w (v_start x) (repeat (Some z) (v_len x)).

(** Vector.h:276-282  fill a range *)
Definition fill_range (w : world) (v : nat) (z : Z) (start n : nat) : vout world :=
  vdo x <- getv w v;
  vdo _ <- vassert (Nat.leb (start + n) (v_len x));
  store w (padd (v_start x) start) (repeat (Some z) n).

(** Vector.h:242-253  copyToSegment *)
Definition copyToSegment (w : world) (v o start span : nat) : vout world :=
  vdo x <- getv w v;
  vdo y <- getv w o;
  vdo _ <- vassert (Nat.leb (start + span) (v_len y));
  vdo _ <- vassert (Nat.leb span (v_len x));
  memcpy w (padd (v_start y) start) (v_start x) span.

(** Vector.h:262-268  segmentCopyTo *)
Definition segmentCopyTo (w : world) (v o start span : nat) : vout world :=
  vdo x <- getv w v;
  vdo y <- getv w o;
  vdo _ <- vassert (Nat.leb (start + span) (v_len x));
  vdo _ <- vassert (Nat.leb span (v_len y));
  memcpy w (v_start y) (padd (v_start x) start) span.

(** BitVector.h:265  dup(BitVector&) *)
Definition dup (w : world) (v o : nat) : vout world :=
  vdo w1 <- makeAlias w v o;
  vdo x <- getv w1 v;
  vdo y <- getv w1 o;
  vdo _ <- vassert (match v_start x, v_start y with
                    | Some (b, i), Some (c, j) => Nat.eqb b c && Nat.eqb i j
                    | None, None => true
                    | _, _ => false
                    end);
  VOk w1.

(** Client programs (Vector.h:90-295). *)
Inductive vop :=
| ONew (n : nat) | OCopyBV (o : nat) | OCopyConst (o : nat) | OCopyShift (o : nat) | OConcat (a b : nat)
| OSegment (o start span : nat) | OCloneSegment (o start span : nat)
| OResize (v n : nat) | OClear (v : nat) | OClone (v o : nat) | OAssign (v o : nat) | OShift (v o : nat)
| ODup (v o : nat) | ORead (v i : nat) | OWrite (v i : nat) (z : Z) | OFill (v : nat) (z : Z)
| OFillRange (v : nat) (z : Z) (start n : nat)
| OCopyTo (v o start span : nat) | OSegCopyTo (v o start span : nat) | ODestroy (v : nat).

(** Helper: without the number of the new object (not in the source). *)
Definition fstw (r : vout (world * nat)) : vout world := vdo (w, _) <- r; VOk w.

(** One operation of the program, by the functions above (Vector.h:90-295). *)
Definition vstep (w : world) (op : vop) : vout world :=
  match op with
  | ONew n => fstw (new_vec w n)
  | OCopyBV o => fstw (copy_bv w o)
  | OCopyConst o => fstw (copy_const w o)
  | OCopyShift o => fstw (copy_shift w o)
  | OConcat a b => fstw (concat w a b)
  | OSegment o s n => fstw (segment w o s n)
  | OCloneSegment o s n => fstw (cloneSegment w o s n)
  | OResize v n => resize w v n
  | OClear v => clear w v
  | OClone v o => clone w v o
  | OAssign v o => assign w v o
  | OShift v o => shiftMem w v o
  | ODup v o => dup w v o
  | ORead v i => vdo _ <- read w v i; VOk w
  | OWrite v i z => write w v i z
  | OFill v z => fill w v z
  | OFillRange v z s n => fill_range w v z s n
  | OCopyTo v o s n => copyToSegment w v o s n
  | OSegCopyTo v o s n => segmentCopyTo w v o s n
  | ODestroy v => destroy w v
  end.

(** The operations of a program (Vector.h:90-295). *)
Fixpoint vrun (w : world) (ops : list vop) : vout world :=
  match ops with
  | [] => VOk w
  | op :: t => vdo w1 <- vstep w op; vrun w1 t
  end.
