(** Model of the initialised scalars and the fields of ScalarTypes.h (24-132).  Float_z and Double_z
    are left out. *)
From Verif Require Import Base BitVectorModel.
Local Open Scope Z_scope.

(** The base types of ScalarTypes.h:58-66 on a machine with 64 bits, and bool (70-75) and
    enumerations (87-91; as int). *)
Inductive stype := TInt | TChar | TInt16 | TInt32 | TUInt | TUChar | TUInt16 | TUInt32 | TSize | TBool | TEnum.
(** The width of the base types of ScalarTypes.h:58-75. *)
Definition bits (t : stype) : Z :=
  match t with TChar | TUChar => 8 | TInt16 | TUInt16 => 16 | TSize => 64 | TBool => 1 | _ => 32 end.
(** Which base types of ScalarTypes.h:58-91 have a sign. *)
Definition signed (t : stype) : bool := match t with TInt | TChar | TInt16 | TInt32 | TEnum => true | _ => false end.
(** Conversion of an integer to the type (ScalarTypes.h:24-37). *)
Definition conv (t : stype) (z : Z) : Z :=
  match t with
  | TBool => if z =? 0 then 0 else 1
  | _ => if signed t then (z + 2 ^ (bits t - 1)) mod 2 ^ bits t - 2 ^ (bits t - 1) else z mod 2 ^ bits t
  end.
(** value = value + w and value = value - w: narrow types are added as int, int overflows (ScalarTypes.h:24-37). *)
Definition arith (t : stype) (z : Z) : res Z :=
  if bits t <? 32 then do i <- int_ z; Ok (conv t i)
  else if signed t then int_ z else Ok (conv t z).

(** The member functions (ScalarTypes.h:24-37); bool and enumerations have no arithmetic. *)
Inductive sop := Assign (w : Z) | Poke (w : Z) | Get | PreInc | PostInc | PreDec | PostDec | AddTo (w : Z) | SubFrom (w : Z).
(** ScalarTypes.h:31-37 is used for all but bool (70-75) and enumerations (87-91). *)
Definition has_arith (t : stype) : bool := match t with TBool | TEnum => false | _ => true end.
(** The calls that compile for a type (ScalarTypes.h:24-37). *)
Definition allowed (t : stype) (o : sop) : bool := match o with Assign _ | Poke _ | Get => true | _ => has_arith t end.
(** The constructors (ScalarTypes.h:25-26). *)
Definition make (t : stype) (Init : Z) : Z := conv t Init.
(** The value returned and the value kept; arguments are converted to the base type (ScalarTypes.h:24-37). *)
Definition sstep (t : stype) (value : Z) (o : sop) : res (Z * Z) :=
  match o with
  | Assign w => let v := conv t w in Ok (v, v)
  | Poke w => let v := conv t w in Ok (v, v)
  | Get => Ok (value, value)
  | PreInc => do v <- arith t (value + 1); Ok (v, v)
  | PostInc => do v <- arith t (value + 1); Ok (value, v)
  | PreDec => do v <- arith t (value - 1); Ok (v, v)
  | PostDec => do v <- arith t (value - 1); Ok (value, v)
  | AddTo w => do v <- arith t (value + conv t w); Ok (v, v)
  | SubFrom w => do v <- arith t (value - conv t w); Ok (v, v)
  end.
(** Calls of ScalarTypes.h:24-37 one after the other: what they return and the value at the end. *)
Fixpoint srun (t : stype) (value : Z) (l : list sop) : res (list Z * Z) :=
  match l with
  | [] => Ok ([], value)
  | o :: r => do (x, v) <- sstep t value o; do (xs, v') <- srun t v r; Ok (x :: xs, v')
  end.

(** Field_i, Field_z and Field (ScalarTypes.h:94-132): an unsigned with a width that is only reported. *)
Record fld := Fld { fwidth : nat; fvalue : Z }.
(** The constructors of fields, ScalarTypes.h:94-132. *)
Definition field (width : nat) (Init : Z) : fld := Fld width (make TUInt Init).
(** A call of a field, which is one of an unsigned scalar (ScalarTypes.h:94-132). *)
Definition fstep (f : fld) (o : sop) : res (Z * fld) := do (x, v) <- sstep TUInt (fvalue f) o; Ok (x, Fld (fwidth f) v).
(** getWidth, ScalarTypes.h:94-132 *)
Definition getWidth (f : fld) : nat := fwidth f.
(** getValue, ScalarTypes.h:94-132 *)
Definition getValue (f : fld) : Z := fvalue f.
(** A message: each field written with writeField, read with readField (ScalarTypes.h:94-132, BitVector.cpp:134-140). *)
Fixpoint write_fields (b : bv) (i : nat) (l : list fld) : res (bv * nat) :=
  match l with [] => Ok (b, i) | f :: r => do (b, i) <- writeField b i (getValue f) (getWidth f); write_fields b i r end.
(** The fields of a message read one after the other with readField (BitVector.cpp:87-92), each assigned
    (ScalarTypes.h:94-132). *)
Fixpoint read_fields (b : bv) (i : nat) (l : list fld) : res (list fld * nat) :=
  match l with
  | [] => Ok ([], i)
  | f :: r => do (x, i) <- readField b i (getWidth f); do (_, g) <- fstep f (Assign x); do (gs, i) <- read_fields b i r; Ok (g :: gs, i)
  end.
